(** * What the constructors of fields store (C81), and reconstruction (C82). *)
(* @imports Spec Demo ConSpec BuildSpec InitSpec *)
From Verif Require Import PyBaseFacts Induct ProcessFacts StructFacts ConFacts ConProofs StructProofs YamlProofs DescFacts BuildProofs BuildSpec InitSpec Demo.
Open Scope Z_scope.

Lemma callable_called E special v o : callable E special v = Ok o <-> called E special v o.
Proof.
  assert (Hobj : forall w, (forall t, w <> VStr t) ->
    (match w with
     | VNone => Ok None
     | VObj i attrs => match aget special attrs with
                       | None => Ok (Some i)
                       | Some (VObj j _) => Ok (Some j)
                       | Some _ => outside
                       end
     | _ => outside
     end = Ok o <-> called E special w o)).
  { intros w Hw. split.
    - intros H. destruct w; try discriminate H; [apply ok_inj in H; subst; constructor|].
      destruct (aget special attrs) as [[]|] eqn:Ha; try discriminate H; apply ok_inj in H; subst o.
      + eapply called_special, Ha.
      + apply called_object, Ha.
    - intros H. inversion H; subst; try reflexivity; try (match goal with H : aget _ _ = _ |- _ => rewrite H end; reflexivity).
      exfalso. eapply Hw. reflexivity. }
  unfold callable. destruct v; cbn [bind];
    try (match goal with |- _ <-> called _ _ ?w _ => exact (Hobj w ltac:(discriminate)) end).
  match goal with |- context [e_import E ?s] => destruct (e_import E s) as [w|] eqn:Ei end; cbn [bind].
  - destruct (match w with VStr _ => true | _ => false end) eqn:Hs.
    + destruct w; try discriminate Hs. split; intros H; [discriminate H|]. inversion H; subst.
      match goal with H : e_import _ _ = Some ?o, H' : forall t, ?o <> VStr t |- _ => rewrite Ei in H; injection H as <-; exfalso; exact (H' _ eq_refl) end.
    + assert (Hw : forall t, w <> VStr t) by (intros t ->; discriminate Hs). rewrite (Hobj w Hw). split.
      * intros H. eapply called_import; eauto.
      * intros H. inversion H; subst. congruence.
  - split; intros H; [discriminate H|]. inversion H; subst. congruence.
Qed.

(** Nothing but the arguments named is removed. *)
Lemma arg_others k names kw : ~ In k names -> arg k (others names kw) = arg k kw.
Proof.
  intros H. unfold arg. assert (Hg : aget k (others names kw) = aget k kw); [|rewrite Hg; reflexivity].
  induction kw as [|[a v] kw IH]; [reflexivity|]. unfold others in *. cbn [filter fst].
  destruct (smem a names) eqn:Hm; cbn [negb aget].
  - destruct (str_eqb k a) eqn:Hk; [|exact IH]. apply str_eqb_eq in Hk. subst a. apply smem_In in Hm. contradiction.
  - destruct (str_eqb k a); [reflexivity|exact IH].
Qed.

Lemma In_others kv names kw : In kv (others names kw) <-> In kv kw /\ ~ In (fst kv) names.
Proof.
  unfold others. rewrite filter_In. split; intros [H1 H2]; (split; [exact H1|]).
  - intros Hx. apply smem_In in Hx. rewrite Hx in H2. discriminate.
  - apply smem_false in H2. rewrite H2. reflexivity.
Qed.

Lemma each_keys l : forall r, each (fun kv : val * val => do s <- as_str (fst kv); Ok (s, snd kv)) l = Ok r
  <-> l = map (fun kv => (VStr (fst kv), snd kv)) r.
Proof.
  induction l as [|[a v] l IH]; intros r; cbn [each].
  - split; [intros H; apply ok_inj in H; subst r; reflexivity|]. destruct r; [reflexivity|discriminate].
  - cbn [fst snd]. destruct a; cbn [as_str bind];
      try (split; [intros H; cbn in H; discriminate H|destruct r as [|[b' w'] r]; [discriminate|cbn [map fst snd]; intros H; discriminate H]]).
    destruct (each _ l) as [r'|e] eqn:He; cbn [bind].
    + split.
      * intros H. apply ok_inj in H. subst r. cbn [map fst snd]. f_equal. apply IH. reflexivity.
      * destruct r as [|[b w] r]; [discriminate|]. cbn [map fst snd]. intros H. injection H as <- <- H. apply IH in H. congruence.
    + split; [discriminate|]. destruct r as [|[b w] r]; [discriminate|]. cbn [map fst snd]. intros H. injection H as _ _ H. apply IH in H. discriminate.
Qed.

Definition extra_arg (kv : str * val) : bool :=
  match fst kv with c :: _ => negb ((c =? 95)%N || is_none (snd kv)) | [] => false end.

Lemma add_aspects_spec extra : NoDup (map fst extra) -> forall acc,
  ((exists r, add_aspects extra acc = Ok r) <-> forall v, ~ In ([], v) extra)
  /\ forall r, add_aspects extra acc = Ok r -> forall name v,
       aget name r = Some v <-> (In (name, v) extra /\ extra_arg (name, v) = true)
                               \/ (forall w, ~ (In (name, w) extra /\ extra_arg (name, w) = true)) /\ aget name acc = Some v.
Proof.
  induction extra as [|[k x] l IH]; intros Hnd acc.
  { split; [split; [intros _ v []|intros _; eexists; reflexivity]|]. intros r H name v. apply ok_inj in H. subst r. split.
    - intros H. right. split; [intros w [[] _]|exact H].
    - intros [[[] _]|[_ H]]. exact H. }
  inversion Hnd as [|? ? Hni Hnd']; subst. cbn [add_aspects]. destruct k as [|c k].
  { split; [|discriminate]. split; [intros [r H]; discriminate H|]. intros H. exfalso. eapply H. left. reflexivity. }
  assert (Hno : forall v, ~ In (c :: k, v) l) by (intros v Hv; apply Hni; apply (in_map fst) in Hv; exact Hv).
  destruct ((c =? 95)%N || is_none x) eqn:Hc.
  - destruct (IH Hnd' acc) as [H1 H2]. split.
    + rewrite H1. split; intros H v Hv; [destruct Hv as [Hv|Hv]; [discriminate Hv|exact (H v Hv)]|exact (H v (or_intror Hv))].
    + intros r Hr name v. rewrite (H2 r Hr name v).
      assert (Hx : forall w, In (name, w) ((c :: k, x) :: l) /\ extra_arg (name, w) = true <-> In (name, w) l /\ extra_arg (name, w) = true).
      { intros w. split; [|intros [H3 H4]; split; [right; exact H3|exact H4]]. intros [[H3|H3] H4]; [|auto].
        injection H3 as <- <-. unfold extra_arg in H4. cbn [fst snd] in H4. rewrite Hc in H4. discriminate H4. }
      rewrite Hx. split; (intros [H|[H H']]; [left; exact H|right; split; [|exact H']; intros w Hw; apply (H w), Hx, Hw]).
  - destruct (IH Hnd' (aset (c :: k) x acc)) as [H1 H2]. split.
    + rewrite H1. split; intros H v Hv; [destruct Hv as [Hv|Hv]; [discriminate Hv|exact (H v Hv)]|exact (H v (or_intror Hv))].
    + intros r Hr name v. rewrite (H2 r Hr name v). destruct (str_eqb name (c :: k)) eqn:Hn.
      * apply str_eqb_eq in Hn. subst name. rewrite aset_get_same. split.
        -- intros [[H _]|[_ H]]; [exfalso; exact (Hno _ H)|]. injection H as <-. left. split; [left; reflexivity|]. unfold extra_arg. cbn [fst snd]. rewrite Hc. reflexivity.
        -- intros [[[H|H] _]|[H _]].
           ++ injection H as <-. right. split; [|reflexivity]. intros w [Hw _]. exact (Hno _ Hw).
           ++ exfalso. exact (Hno _ H).
           ++ exfalso. apply (H x). split; [left; reflexivity|]. unfold extra_arg. cbn [fst snd]. rewrite Hc. reflexivity.
      * rewrite aset_get_other by (intros ->; rewrite str_eqb_refl in Hn; discriminate).
        assert (Hx : forall w, In (name, w) ((c :: k, x) :: l) /\ extra_arg (name, w) = true <-> In (name, w) l /\ extra_arg (name, w) = true).
        { intros w. split; [|intros [H3 H4]; split; [right; exact H3|exact H4]]. intros [[H3|H3] H4]; [|auto].
          injection H3 as <- <-. rewrite str_eqb_refl in Hn. discriminate. }
        rewrite Hx. split; (intros [H|[H H']]; [left; exact H|right; split; [|exact H']; intros w Hw; apply (H w), Hx, Hw]).
Qed.

(** The common parameters, from the arguments [Field.__init__] is called with. *)
Lemma init_params_made E kw p : NoDup (map fst (others base_args kw)) -> init_params E kw = Ok p -> common E CField kw p.
Proof.
  intros Hnd' H. unfold init_params in H. cbv zeta in H.
  destruct (callable E $"__instantiate__" (arg $"instantiator" kw)) as [inst|] eqn:H1; cbn [bind] in H; [|discriminate].
  destruct (callable E $"__extract__" (arg $"extractor" kw)) as [ext|] eqn:H2; cbn [bind] in H; [|discriminate].
  destruct (match arg $"aspects" kw with VDict _ l => _ | _ => _ end) as [asp|] eqn:H3; cbn [bind] in H; [|discriminate].
  destruct (match arg $"name" kw with VNone => _ | _ => _ end) as [nm|] eqn:H4; cbn [bind] in H; [|discriminate].
  destruct (match arg $"preprocessor" kw with VNone => _ | _ => _ end) as [pre|] eqn:H5; cbn [bind] in H; [|discriminate].
  destruct (add_aspects (others base_args kw) asp) as [asp'|] eqn:H6; cbn [bind] in H; [|discriminate].
  apply ok_inj in H. subst p. apply callable_called in H1, H2.
  destruct (add_aspects_spec _ Hnd' asp) as [Hn Ha].
  constructor; cbn [p_name p_nonnull p_required p_ignore_null p_default p_constant p_preprocessor p_instantiator p_extractor p_title
                    p_description p_notes p_aspects]; try reflexivity; try assumption.
  - destruct (arg $"name" kw); try discriminate H4; apply ok_inj in H4; subst nm; cbn; auto. split; [discriminate|reflexivity].
  - destruct (arg $"preprocessor" kw); try discriminate H5; apply ok_inj in H5; subst pre; cbn; auto. split; [discriminate|eauto].
  - exists asp. split.
    + destruct (arg $"aspects" kw); try (destruct (truthy _) eqn:Ht in H3; [discriminate H3|apply ok_inj in H3; subst asp; left; split; [exact Ht|reflexivity]]).
      right. eexists. f_equal. apply each_keys. exact H3.
    + intros name v. rewrite (Ha _ H6 name v).
      assert (Hx : forall w, In (name, w) (others base_args kw) /\ extra_arg (name, w) = true <-> additional CField kw name w).
      { intros w. rewrite In_others. unfold additional, extra_arg. cbn [fst snd class_args In]. split.
        - intros [[Hi Hb] He]. destruct name as [|c name]; [discriminate|]. apply Bool.negb_true_iff, Bool.orb_false_iff in He. destruct He as [He1 He2].
          repeat split; auto; [intros s [= -> ->]; discriminate|intros ->; discriminate].
        - intros [Hi [_ [Hb [Hu Hw]]]]. split; [auto|]. destruct name as [|c name].
          + exfalso. apply (proj1 Hn (ex_intro _ _ H6) w). apply In_others. auto.
          + apply Bool.negb_true_iff, Bool.orb_false_iff. split; [|destruct w; try reflexivity; congruence].
            apply N.eqb_neq. intros ->. exact (Hu name eq_refl). }
      rewrite Hx. split; (intros [H|[H H']]; [left; exact H|right; split; [|exact H']; intros w Hw; apply (H w), Hx, Hw]).
  - intros v Hv. apply (proj1 Hn (ex_intro _ _ H6) v). apply In_others. split; [exact Hv|].
    cbn. intuition discriminate.
Qed.

Lemma NoDup_others names kw : NoDup (map fst kw) -> NoDup (map fst (others names kw)).
Proof.
  intros Hnd. unfold others. induction kw as [|kv kw IH]; [constructor|]. cbn [map filter] in *. inversion Hnd; subst.
  destruct (negb _); [|auto]. cbn [map]. constructor; [|auto]. intros Hx. apply in_map_iff in Hx. destruct Hx as [y [Hy Hi]].
  apply filter_In in Hi. match goal with H : ~ In _ _ |- _ => apply H end. rewrite <- Hy. apply in_map, Hi.
Qed.

(** ... and from those of the constructor of a class. *)
Lemma common_class E c kw p : c <> CBinary -> c <> CText -> c <> CEmail ->
  NoDup (map fst kw) -> init_params E (others (class_args c) kw) = Ok p -> common E c kw p.
Proof.
  intros H1 H2 H3 Hnd H. apply init_params_made in H; [|apply NoDup_others, NoDup_others, Hnd].
  destruct H as [Ha Hb Hc Hd He Hf Hg Hh Hi Hj Hk Hl [l [Hm1 Hm2]] Hn].
  rewrite !others_arg in *.
  assert (Hr : forall name, smem name (class_args c) = true -> In name [$"name"; $"nonnull"; $"nonempty"; $"required"; $"ignore_null"; $"default"; $"constant";
     $"preprocessor"; $"instantiator"; $"extractor"; $"title"; $"description"; $"notes"; $"aspects"] -> False).
  { intros name Hs Hin. cbn [In] in Hin.
    repeat (destruct Hin as [<-|Hin]; [destruct c; try congruence; vm_compute in Hs; discriminate Hs|]). exact Hin. }
  assert (Hs : forall name, In name [$"name"; $"nonnull"; $"nonempty"; $"required"; $"ignore_null"; $"default"; $"constant";
     $"preprocessor"; $"instantiator"; $"extractor"; $"title"; $"description"; $"notes"; $"aspects"] -> smem name (class_args c) = false).
  { intros name Hin. destruct (smem name (class_args c)) eqn:Hs; [destruct (Hr _ Hs Hin)|reflexivity]. }
  repeat match goal with H : context [smem ?x (class_args c)] |- _ =>
    rewrite (Hs x ltac:(clear; cbn [In]; tauto)) in H end.
  constructor; try assumption.
  - exists l. split; [exact Hm1|]. intros name v. rewrite Hm2.
    assert (Hx : forall w, additional CField (others (class_args c) kw) name w <-> additional c kw name w).
    { intros w. unfold additional. rewrite In_others. cbn [class_args fst In]. tauto. }
    rewrite Hx. split; (intros [H|[H H']]; [left; exact H|right; split; [|exact H']; intros w Hw; apply (H w), Hx, Hw]).
  - intros v Hv. apply (Hn v). apply In_others. split; [exact Hv|]. destruct c; cbn; intuition discriminate.
Qed.

Lemma flag_nonempty_args kw base k : k = $"required" \/ k = $"nonnull" ->
  truthy (arg k (nonempty_args kw ++ base)) = truthy (arg $"nonempty" kw) || truthy (arg k base).
Proof.
  intros H. unfold nonempty_args, flag. destruct (truthy (arg $"nonempty" kw)); [|reflexivity].
  destruct H as [-> | ->]; reflexivity.
Qed.

Lemma common_nonempty E c kw p : c = CBinary \/ c = CText \/ c = CEmail ->
  NoDup (map fst kw) -> init_params E (nonempty_args kw ++ others (class_args c) kw) = Ok p -> common E c kw p.
Proof.
  intros Hc Hnd H.
  assert (Hsm : smem $"nonempty" (class_args c) = true) by (destruct Hc as [-> |[-> | ->]]; reflexivity).
  apply init_params_made in H.
  2:{ assert (Heq : others base_args (nonempty_args kw ++ others (class_args c) kw) = others base_args (others (class_args c) kw)).
      { unfold nonempty_args. destruct (flag $"nonempty" kw); reflexivity. }
      rewrite Heq. apply NoDup_others, NoDup_others, Hnd. }
  destruct H as [Ha Hb Hr Hd He Hf Hg Hh Hi Hj Hk Hl [l [Hm1 Hm2]] Hn].
  rewrite flag_nonempty_args in Hb, Hr by auto.
  repeat match goal with H : context [arg ?x (nonempty_args kw ++ ?b)] |- _ => rewrite (arg_nonempty_args x kw b eq_refl eq_refl) in H end.
  rewrite !others_arg in *. rewrite Hsm in *.
  assert (Hs : forall name, In name [$"name"; $"nonnull"; $"required"; $"ignore_null"; $"default"; $"constant";
     $"preprocessor"; $"instantiator"; $"extractor"; $"title"; $"description"; $"notes"; $"aspects"] -> smem name (class_args c) = false).
  { intros name Hin. cbn [In] in Hin.
    repeat (destruct Hin as [<-|Hin]; [destruct Hc as [-> |[-> | ->]]; reflexivity|]). destruct Hin. }
  repeat match goal with H : context [smem ?x (class_args c)] |- _ =>
    rewrite (Hs x ltac:(clear; cbn [In]; tauto)) in H end.
  change (truthy VNone) with false in *. rewrite Bool.orb_false_r in Hb, Hr.
  constructor; try assumption; try (rewrite Bool.orb_comm; assumption).
  - exists l. split; [exact Hm1|]. intros name v. rewrite Hm2.
    assert (Hx : forall w, additional CField (nonempty_args kw ++ others (class_args c) kw) name w <-> additional c kw name w).
    { intros w. unfold additional. rewrite in_app_iff, In_others. cbn [class_args fst In]. split; [|tauto].
      intros [[H|H] H']; [|tauto]. exfalso. apply (proj1 (proj2 H')). unfold nonempty_args in H. destruct (flag _ _); [|destruct H].
      destruct H as [[= <- _]|[[= <- _]|[]]]; cbn; auto 12. }
    rewrite Hx. split; (intros [H|[H H']]; [left; exact H|right; split; [|exact H']; intros w Hw; apply (H w), Hx, Hw]).
  - intros v Hv. apply (Hn v). apply in_or_app. right. apply In_others. split; [exact Hv|]. destruct Hc as [-> |[-> | ->]]; cbn; intuition discriminate.
Qed.

(** ** Single arguments *)

Lemma stands_intro {A} (f : val -> res (option A)) (P : val -> A -> Prop) v o :
  (f VNone = Ok None) -> (forall w, w <> VNone -> f w <> Ok None) ->
  (forall w a, w <> VNone -> (f w = Ok (Some a) <-> P w a)) -> (f v = Ok o <-> stands P v o).
Proof.
  intros H1 H2 H3. destruct o as [a|]; cbn.
  - split.
    + intros H. assert (Hv : v <> VNone) by (intros ->; congruence). split; [exact Hv|]. apply H3; assumption.
    + intros [Hv H]. apply H3; assumption.
  - split; [|intros ->; exact H1]. intros H. destruct v; try reflexivity; exfalso; (eapply H2; [|exact H]; discriminate).
Qed.

Lemma length_arg_iff v o : length_arg v = Ok o <-> stands length_of v o.
Proof.
  apply stands_intro; [reflexivity| |].
  - intros w Hw H. destruct w; cbn in H; try discriminate H; [congruence|]. destruct (0 <=? _); discriminate H.
  - intros w a Hw. unfold length_of, int_of. destruct w; cbn [length_arg]; try (split; [discriminate|intros [[H|[b' [H _]]] _]; discriminate H]).
    + split; [intros H; apply ok_inj in H; injection H as <-; split; [right; exists b; split; reflexivity|destruct b; cbn; lia]|].
      intros [[H|[b' [H ->]]] _]; [discriminate H|injection H as <-; reflexivity].
    + split.
      * destruct (Z.leb_spec 0 z); [|discriminate]. intros H'; apply ok_inj in H'; injection H' as <-. auto.
      * intros [[H|[b' [H _]]] Hz]; [|discriminate H]. injection H as ->. apply Z.leb_le in Hz. rewrite Hz. reflexivity.
Qed.

Lemma int_arg_iff v o : int_arg v = Ok o <-> stands int_of v o.
Proof.
  apply stands_intro; [reflexivity| |].
  - intros w Hw H. destruct w; cbn in H; try discriminate H. congruence.
  - intros w a Hw. unfold int_of. destruct w; cbn [int_arg]; try (split; [discriminate|intros [H|[b' [H _]]]; discriminate H]).
    + split; [intros H; apply ok_inj in H; injection H as <-; right; exists b; split; reflexivity|].
      intros [H|[b' [H ->]]]; [discriminate H|injection H as <-; reflexivity].
    + split; [intros H; apply ok_inj in H; injection H as <-; auto|]. intros [H|[b' [H _]]]; [injection H as ->; reflexivity|discriminate H].
Qed.

Lemma segments_arg_iff v o : segments_arg v = Ok o <-> stands int_of v o.
Proof.
  rewrite <- int_arg_iff. destruct v; cbn; try reflexivity; split; discriminate.
Qed.

Lemma float_arg_iff v o : float_arg v = Ok o <-> stands (fun v x => v = VFloat x) v o.
Proof.
  apply stands_intro; [reflexivity| |].
  - intros w Hw H. destruct w; cbn in H; try discriminate H. congruence.
  - intros w a Hw. destruct w; cbn [float_arg]; try (split; discriminate).
    split; [intros H; apply ok_inj in H; injection H as <-; auto|intros H; injection H as ->; reflexivity].
Qed.

Lemma date_arg_iff E v o : date_arg E v = Ok o <-> stands (date_of E) v o.
Proof.
  apply stands_intro; [reflexivity| |].
  - intros w Hw H. destruct w; cbn in H; try discriminate H; [congruence|]. destruct (parse_date _ _); discriminate H.
  - intros w a Hw. unfold date_of. destruct w; cbn [date_arg]; try (split; [discriminate|intros [H|[s' [H _]]]; discriminate H]).
    + split.
      * destruct (parse_date _ s) eqn:Hp; [|discriminate]. intros H; apply ok_inj in H; injection H as <-. right. eauto.
      * intros [H|[s' [H Hp]]]; [discriminate H|]. injection H as <-. rewrite Hp. reflexivity.
    + split; [intros H; apply ok_inj in H; injection H as <-; auto|]. intros [H|[s' [H _]]]; [injection H as ->; reflexivity|discriminate H].
Qed.

Lemma time_arg_iff E v o : time_arg E v = Ok o <-> stands (time_of E) v o.
Proof.
  apply stands_intro; [reflexivity| |].
  - intros w Hw H. destruct w; cbn in H; try discriminate H; [congruence|]. destruct (parse_tod _ _); discriminate H.
  - intros w a Hw. unfold time_of. destruct w; cbn [time_arg]; try (split; [discriminate|intros [H|[s' [H _]]]; discriminate H]).
    + split.
      * destruct (parse_tod _ s) eqn:Hp; [|discriminate]. intros H; apply ok_inj in H; injection H as <-. right. eauto.
      * intros [H|[s' [H Hp]]]; [discriminate H|]. injection H as <-. rewrite Hp. reflexivity.
    + split; [intros H; apply ok_inj in H; injection H as <-; auto|]. intros [H|[s' [H _]]]; [injection H as ->; reflexivity|discriminate H].
Qed.

Lemma dec_arg_iff E v o : dec_arg E v = Ok o <-> stands (decimal_of E) v o.
Proof.
  apply stands_intro; [reflexivity| |].
  - intros w Hw H. destruct w; cbn -[to_dec] in H; try discriminate H; [congruence|]. destruct (to_dec _ _); discriminate H.
  - intros w a Hw. unfold decimal_of. destruct w; cbn [dec_arg]; try (split; [discriminate|intros [H|[s' [H _]]]; discriminate H]).
    + split.
      * destruct (to_dec _ (VStr s)) eqn:Hp; [|discriminate]. intros H; apply ok_inj in H; injection H as <-. right. eauto.
      * intros [H|[s' [H Hp]]]; [discriminate H|]. injection H as <-. rewrite Hp. reflexivity.
    + split; [intros H; apply ok_inj in H; injection H as <-; auto|]. intros [H|[s' [H _]]]; [injection H as ->; reflexivity|discriminate H].
Qed.

Lemma datetime_arg_iff E utc v o : datetime_arg E utc v = Ok o <-> stands (datetime_of E utc) v o.
Proof.
  apply stands_intro; [reflexivity| |].
  - intros w Hw H. destruct w; cbn -[dt_normalize] in H; try discriminate H; [congruence| |].
    + destruct (parse_datetime _ _); [|discriminate H]. apply bind_Ok in H. destruct H as [x [_ H]]. discriminate H.
    + apply bind_Ok in H. destruct H as [x [_ H]]. discriminate H.
  - intros w a Hw. unfold datetime_of. destruct w; cbn [datetime_arg]; try (split; [discriminate|intros [d0 [[H|[s' [H _]]] _]]; discriminate H]).
    + split.
      * destruct (parse_datetime _ s) as [d0|] eqn:Hp; [|discriminate]. intros H. apply bind_Ok in H. destruct H as [x [Hx H]].
        apply ok_inj in H; injection H as <-. exists d0. split; [right; eauto|exact Hx].
      * intros [d0 [[H|[s' [H Hp]]] Hd]]; [discriminate H|]. injection H as <-. rewrite Hp, Hd. reflexivity.
    + split.
      * intros H. apply bind_Ok in H. destruct H as [x [Hx H]]. apply ok_inj in H; injection H as <-. exists dt. auto.
      * intros [d0 [[H|[s' [H Hp]]] Hd]]; [|discriminate H]. injection H as ->. rewrite Hd. reflexivity.
Qed.

Lemma pattern_arg_iff E v o : pattern_arg E v = Ok o <-> stands (pattern_of E) v o.
Proof.
  apply stands_intro; [reflexivity| |].
  - intros w Hw H. destruct w; cbn in H; try discriminate H; [congruence|]. destruct (e_compile E s); discriminate H.
  - intros w a Hw. unfold pattern_of. destruct w; cbn [pattern_arg]; try (split; [discriminate|intros [[at' H]|[s' [H _]]]; discriminate H]).
    + split.
      * destruct (e_compile E s) eqn:Hp; [|discriminate]. intros H; apply ok_inj in H; injection H as <-. right. eauto.
      * intros [[at' H]|[s' [H Hp]]]; [discriminate H|]. injection H as <-. rewrite Hp. reflexivity.
    + split; [intros H; apply ok_inj in H; injection H as <-; eauto|]. intros [[at' H]|[s' [H _]]]; [injection H as -> _; reflexivity|discriminate H].
Qed.

Lemma words_iff s l : words s l <-> l = split_space s.
Proof. split; [apply words_split|intros ->; apply split_space_words]. Qed.

Lemma list_of_cases v l : list_of v l <-> match v with
  | VStr s => l = map VStr (split_space s)
  | VList m | VTuple m => l = m
  | _ => False
  end.
Proof.
  unfold list_of. destruct v; split; intros H;
    try (destruct H as [H|[H|[s' [ws [H _]]]]]; discriminate H); try contradiction.
  - destruct H as [H|[H|[s' [ws [H [Hw ->]]]]]]; try discriminate H. injection H as <-. apply words_iff in Hw. congruence.
  - right. right. exists s, (split_space s). split; [reflexivity|]. split; [apply split_space_words|exact H].
  - destruct H as [H|[H|[s' [ws [H _]]]]]; try discriminate H. congruence.
  - left. congruence.
  - destruct H as [H|[H|[s' [ws [H _]]]]]; try discriminate H. congruence.
  - right. left. congruence.
Qed.

Lemma natives_iff l r : natives l = Ok r <-> r = l /\ Forall serializable l.
Proof.
  unfold natives.
  assert (Hf : forallb natively_serializable l = true <-> Forall serializable l).
  { rewrite forallb_forall, Forall_forall. split; intros H x Hx; specialize (H x Hx); destruct x; try exact I; try discriminate H; try reflexivity; contradiction. }
  destruct (forallb natively_serializable l) eqn:Hb.
  - split; [intros H; apply ok_inj in H; split; [congruence|apply Hf; reflexivity]|intros [-> _]; reflexivity].
  - split; [discriminate|]. intros [_ H]. apply Hf in H. discriminate.
Qed.

Lemma texts_serializable l : Forall serializable (map VStr l).
Proof. rewrite Forall_forall. intros x Hx. apply in_map_iff in Hx. destruct Hx as [s [<- _]]. exact I. Qed.

Lemma enumeration_arg_iff v l : enumeration_arg v = Ok l <-> list_of v l /\ Forall serializable l.
Proof.
  rewrite list_of_cases. destruct v; cbn [enumeration_arg py_iter]; try solve [split; [discriminate|intros [[] _]]].
  - split; [intros H; apply ok_inj in H; subst l; split; [reflexivity|apply texts_serializable]|intros [-> _]; reflexivity].
  - rewrite natives_iff. split; intros [-> H]; auto.
  - rewrite natives_iff. split; intros [-> H]; auto.
Qed.

Lemma ignored_arg_iff v o : ignored_arg v = Ok o
  <-> stands (fun v i => list_of v i /\ (forall t, v <> VTuple t) /\ Forall serializable i) v o.
Proof.
  apply stands_intro; [reflexivity| |].
  - intros w Hw H. destruct w; cbn in H; try discriminate H; [congruence|]. destruct (natives l); discriminate H.
  - intros w a Hw. rewrite list_of_cases. destruct w; cbn [ignored_arg]; try solve [split; [discriminate|intros [[] _]]].
    + split; [intros H; apply ok_inj in H; injection H as <-; split; [reflexivity|split; [discriminate|apply texts_serializable]]|intros [-> _]; reflexivity].
    + split.
      * destruct (natives l) as [r|] eqn:Hn; [|discriminate]. intros H. apply ok_inj in H. injection H as <-. apply natives_iff in Hn.
        destruct Hn as [-> Hn]. split; [reflexivity|]. split; [discriminate|exact Hn].
      * intros [-> [_ H]]. assert (Hn : natives l = Ok l) by (apply natives_iff; auto). rewrite Hn. reflexivity.
    + split; [discriminate|]. intros [_ [H _]]. exfalso. exact (H _ eq_refl).
Qed.

Lemma required_keys_arg_iff v o : required_keys_arg v = Ok o <-> stands list_of v o.
Proof.
  apply stands_intro; [reflexivity| |].
  - intros w Hw H. destruct w; cbn in H; try discriminate H; congruence.
  - intros w a Hw. rewrite list_of_cases. destruct w; cbn [required_keys_arg]; try solve [split; [discriminate|intros []]];
      try (split; [intros H; apply ok_inj in H; injection H as <-; reflexivity|intros ->; reflexivity]).
Qed.

Lemma key_arg_iff v o : key_arg v = Ok o <-> stands (fun x f => x = VField f /\ exists p kd, f = Fld p kd) v o.
Proof.
  apply stands_intro; [reflexivity| |].
  - intros w Hw H. destruct w; cbn in H; try discriminate H; [congruence|]. destruct f; discriminate H.
  - intros w a Hw. destruct w; cbn [key_arg]; try (split; [discriminate|intros [H _]; discriminate H]).
    destruct f as [i|p k]; [split; [discriminate|intros [H [p [kd ->]]]; discriminate H]|].
    split; [intros H; apply ok_inj in H; injection H as <-; eauto|intros [H _]; injection H as <-; reflexivity].
Qed.

Lemma each_fields l : forall r, each field_arg l = Ok r <-> l = map VField r.
Proof.
  induction l as [|v l IH]; intros r; cbn [each].
  - split; [intros H; apply ok_inj in H; subst r; reflexivity|]. destruct r; [reflexivity|discriminate].
  - destruct v; cbn [field_arg]; try (split; [intros H; cbn in H; discriminate H|destruct r; discriminate]).
    cbn [bind]. destruct (each field_arg l) as [r'|e] eqn:He; cbn [bind].
    + split.
      * intros H. apply ok_inj in H. subst r. cbn [map]. f_equal. apply IH. reflexivity.
      * destruct r as [|g r]; [discriminate|]. cbn [map]. intros H. injection H as <- H. apply IH in H. congruence.
    + split; [discriminate|]. destruct r as [|g r]; [discriminate|]. cbn [map]. intros H. injection H as _ H. apply IH in H. discriminate.
Qed.

Lemma fields_arg_iff v l : fields_arg v = Ok l <-> l <> [] /\ (v = VList (map VField l) \/ v = VTuple (map VField l)).
Proof.
  destruct v; cbn [fields_arg]; try (split; [discriminate|intros [_ [H|H]]; discriminate H]).
  - destruct l0 as [|x l0]; [split; [discriminate|intros [Hn [H|H]]; [|discriminate H]; destruct l; [congruence|discriminate H]]|].
    rewrite each_fields. split.
    + intros H. split; [intros ->; discriminate H|]. left. congruence.
    + intros [_ [H|H]]; [congruence|discriminate H].
  - destruct l0 as [|x l0]; [split; [discriminate|intros [Hn [H|H]]; [discriminate H|]; destruct l; [congruence|discriminate H]]|].
    rewrite each_fields. split.
    + intros H. split; [intros ->; discriminate H|]. right. congruence.
    + intros [_ [H|H]]; [discriminate H|congruence].
Qed.

Lemma each_texts l : forall r, each as_str l = Ok r <-> l = map VStr r.
Proof.
  induction l as [|v l IH]; intros r; cbn [each].
  - split; [intros H; apply ok_inj in H; subst r; reflexivity|]. destruct r; [reflexivity|discriminate].
  - destruct v; cbn [as_str]; try (split; [intros H; cbn in H; discriminate H|destruct r; discriminate]).
    cbn [bind]. destruct (each as_str l) as [r'|e] eqn:He; cbn [bind].
    + split.
      * intros H. apply ok_inj in H. subst r. cbn [map]. f_equal. apply IH. reflexivity.
      * destruct r as [|g r]; [discriminate|]. cbn [map]. intros H. injection H as <- H. apply IH in H. congruence.
    + split; [discriminate|]. destruct r as [|g r]; [discriminate|]. cbn [map]. intros H. injection H as _ H. apply IH in H. discriminate.
Qed.

Lemma find_cls_Some s c : find_cls s = Some c <-> cls_name c = s.
Proof.
  split; [|intros <-; apply CloneFacts.find_cls_name]. unfold find_cls. intros H. apply find_some in H. destruct H as [_ H].
  destruct (str_eqb_spec (cls_name c) s); [assumption|discriminate].
Qed.

Definition class_text (x : val) : res str :=
  match x with
  | VStr s => match find_cls s with Some _ => Ok s | None => py ValueError end
  | _ => if hashable x then py ValueError else py TypeError
  end.

Lemma class_text_ok x s : class_text x = Ok s -> x = VStr s /\ exists c, cls_name c = s.
Proof.
  intros H. destruct x; cbn -[find_cls] in H; try discriminate H;
    try match type of H with (if ?b then _ else _) = _ => destruct b; discriminate H end.
  - destruct (find_cls s0) as [c|] eqn:Hc; [|discriminate H]. apply ok_inj in H. subst s0. split; [reflexivity|].
    exists c. apply find_cls_Some. exact Hc.
Qed.

Lemma each_class_text l : forall r, each class_text l = Ok r -> l = map VStr r /\ forall s, In s r -> exists c, cls_name c = s.
Proof.
  induction l as [|v l IH]; intros r; cbn [each].
  - intros H; apply ok_inj in H; subst r. split; [reflexivity|intros s []].
  - intros H. apply bind_Ok in H. destruct H as [s [Hs H]]. apply bind_Ok in H. destruct H as [r' [Hr H]]. apply ok_inj in H. subst r.
    apply class_text_ok in Hs. destruct Hs as [-> Hs]. destruct (IH _ Hr) as [-> Hin]. split; [reflexivity|].
    intros t [<-|Ht]; auto.
Qed.

Lemma valid_fields_arg_ok v o : valid_fields_arg v = Ok o ->
  names_of v o /\ forall l s, o = Some l -> In s l -> exists c, cls_name c = s.
Proof.
  unfold valid_fields_arg. cbv zeta. fold class_text.
  set (items := match v with VStr s => VList (map VStr (split_space s)) | _ => v end).
  destruct (truthy items) eqn:Ht.
  - destruct items eqn:Hi; try discriminate.
    + intros H. apply bind_Ok in H. destruct H as [r [Hr H]]. apply ok_inj in H. subst o. apply each_class_text in Hr. destruct Hr as [-> Hr].
      split; [|intros l s [= <-] Hs; auto]. split; [intros ->; discriminate Ht|].
      apply list_of_cases. destruct v; try discriminate Hi; injection Hi as Hi; auto.
    + intros H. apply bind_Ok in H. destruct H as [r [Hr H]]. apply ok_inj in H. subst o. apply each_class_text in Hr. destruct Hr as [-> Hr].
      split; [|intros l s [= <-] Hs; auto]. split; [intros ->; discriminate Ht|].
      apply list_of_cases. destruct v; try discriminate Hi; injection Hi as Hi; auto.
  - intros H. apply ok_inj in H. subst o. split; [|discriminate].
    destruct v; cbn; try (split; [exact Ht|discriminate]).
    exfalso. unfold items in Ht. destruct (split_space s) eqn:Hs; [|discriminate Ht].
    pose proof (split_space_words s) as Hw. rewrite Hs in Hw. inversion Hw.
Qed.

Lemma valid_surrogates_arg_ok v o : valid_surrogates_arg v = Ok o -> surrogates_of v o.
Proof.
  unfold valid_surrogates_arg. destruct v; try (destruct (truthy _) eqn:Ht; [cbn [py_iter]|]); intros H; try discriminate H;
    try (apply ok_inj in H; subst o; left; split; [exact Ht|discriminate]).
  - apply ok_inj in H. subst o. left. split.
    + intros Hs. pose proof (split_space_words s) as Hw. rewrite Hs in Hw. inversion Hw.
    + apply list_of_cases. reflexivity.
  - apply bind_Ok in H. destruct H as [r [Hr H]]. apply ok_inj in H. subst o. apply each_texts in Hr.
    match goal with b : list N |- _ => destruct b; [discriminate Ht|destruct r; discriminate Hr] end.
  - apply bind_Ok in H. destruct H as [r [Hr H]]. apply ok_inj in H. subst o. apply each_texts in Hr. subst l. left.
    split; [intros ->; discriminate Ht|apply list_of_cases; reflexivity].
  - apply bind_Ok in H. destruct H as [r [Hr H]]. apply ok_inj in H. subst o. apply each_texts in Hr. subst l. left.
    split; [intros ->; discriminate Ht|apply list_of_cases; reflexivity].
  - apply bind_Ok in H. destruct H as [r [Hr H]]. apply ok_inj in H. subst o. apply each_texts in Hr. right.
    exists r, l. repeat split; eauto. intros ->. destruct l; [discriminate Ht|discriminate Hr].
  - apply bind_Ok in H. destruct H as [r [Hr H]]. apply ok_inj in H. subst o. apply each_texts in Hr. right.
    exists r, l. repeat split; eauto. intros ->. destruct l; [discriminate Ht|discriminate Hr].
Qed.

Lemma least_arg kw o : length_arg (min_length_arg kw) = Ok o <-> least kw o.
Proof.
  unfold min_length_arg, least, flag. destruct (truthy (arg $"nonempty" kw) && is_none (arg $"min_length" kw)).
  - cbn. split; [intros H; apply ok_inj in H; congruence|intros ->; reflexivity].
  - apply length_arg_iff.
Qed.

Lemma field_arg_iff v f : field_arg v = Ok f <-> v = VField f.
Proof. destruct v; cbn; split; intros H; try discriminate H; [apply ok_inj in H|injection H as ->]; congruence. Qed.

Lemma flag_on_default k kw : default_true k kw (flag_on k kw).
Proof. unfold default_true, flag_on. destruct (aget k kw); reflexivity. Qed.

Ltac steps H := repeat match type of H with
  | bind _ _ = Ok _ => let x := fresh "x" in let Hx := fresh "Hx" in apply bind_Ok in H; destruct H as [x [Hx H]]
  end.

(** @prop C81 The constructors of all classes but Structure store exactly what they are given.  The
    parameters of the class are stored as they are, or read from the forms the class accepts (texts cut at
    blanks, dates as texts, ...).  The parameters common to all fields are stored in the same way for
    every class, and what remains becomes aspects. *)
Lemma constructors_store :
  forall E cl c kw p k,
    NoDup (map fst kw) -> c <> CStructure -> init E cl c kw = Ok (Fld p k) ->
    stored E c kw k /\ common E c kw p.
Proof.
  intros E cl c kw p k Hnd Hc H.
  destruct c; try congruence; clear Hc; cbn [init] in H;
    try (destruct (_ && _) eqn:Hme in H; [discriminate H|]); steps H; apply ok_inj in H; injection H as -> <-;
    (split; [|first [apply common_class; [discriminate|discriminate|discriminate|exact Hnd|assumption]
                    |apply common_nonempty; [auto|exact Hnd|assumption]]]); cbn [stored]; try reflexivity;
    repeat match goal with
    | H : length_arg (min_length_arg _) = Ok _ |- _ => apply least_arg in H
    | H : length_arg _ = Ok _ |- _ => apply length_arg_iff in H
    | H : int_arg _ = Ok _ |- _ => apply int_arg_iff in H
    | H : float_arg _ = Ok _ |- _ => apply float_arg_iff in H
    | H : segments_arg _ = Ok _ |- _ => apply segments_arg_iff in H
    | H : date_arg _ _ = Ok _ |- _ => apply date_arg_iff in H
    | H : time_arg _ _ = Ok _ |- _ => apply time_arg_iff in H
    | H : datetime_arg _ _ _ = Ok _ |- _ => apply datetime_arg_iff in H
    | H : dec_arg _ _ = Ok _ |- _ => apply dec_arg_iff in H
    | H : pattern_arg _ _ = Ok _ |- _ => apply pattern_arg_iff in H
    | H : enumeration_arg _ = Ok _ |- _ => apply enumeration_arg_iff in H
    | H : ignored_arg _ = Ok _ |- _ => apply ignored_arg_iff in H
    | H : required_keys_arg _ = Ok _ |- _ => apply required_keys_arg_iff in H
    | H : key_arg _ = Ok _ |- _ => apply key_arg_iff in H
    | H : fields_arg _ = Ok _ |- _ => apply fields_arg_iff in H
    | H : field_arg _ = Ok _ |- _ => apply field_arg_iff in H
    | H : valid_fields_arg _ = Ok _ |- _ => apply valid_fields_arg_ok in H
    | H : valid_surrogates_arg _ = Ok _ |- _ => apply valid_surrogates_arg_ok in H
    end.
  all: try solve [do 4 eexists; (split; [reflexivity|]); repeat split; try tauto; try apply flag_on_default
                 |do 3 eexists; (split; [reflexivity|]); tauto|do 2 eexists; (split; [reflexivity|]); tauto|eexists; split; [reflexivity|]; tauto].
  all: do 2 eexists; (split; [reflexivity|]); (split; [|tauto]). intros [H1 H2]. unfold flag in Hme. rewrite H1, H2 in Hme. discriminate.
Qed.
(** @example
Example C81_example :
  exists p k, init env0 (clone env0 1) CInteger
    [($"minimum", VInt 3); ($"required", VBool true); ($"unit", VStr $"m"); ($"_hidden", VInt 1)] = Ok (Fld p k)
    /\ NoDup (map fst [($"minimum", VInt 3); ($"required", VBool true); ($"unit", VStr $"m"); ($"_hidden", VInt 1)])
    /\ k = KInteger (Some 3%Z) None /\ p_required p = true /\ p_aspects p = [($"unit", VStr $"m")].
Proof.
  do 2 eexists. split; [reflexivity|]. split; [|repeat split].
  repeat constructor; cbn; intuition discriminate.
Qed.
@end *)

(** ** Reconstruction *)


Definition same {A} (P : val -> val -> Prop) (a b : A * val) : Prop := fst a = fst b /\ P (snd a) (snd b).

Lemma as_kwargs_iff l kw : as_kwargs l = Ok kw
  <-> l = strs kw /\ ~ In $"cls" (map fst kw) /\ ~ In $"self" (map fst kw).
Proof.
  split.
  - unfold as_kwargs. intros H. apply bind_Ok in H. destruct H as [r [Hr H]].
    destruct (smem $"cls" (map fst r) || smem $"self" (map fst r)) eqn:Hs; [discriminate H|]. apply ok_inj in H. subst r.
    apply Bool.orb_false_iff in Hs. destruct Hs as [H1 H2]. apply smem_false in H1, H2. split; [|auto].
    apply each_ok in Hr. clear -Hr. induction Hr as [|[a x] [b y] l l' H _ IH]; [reflexivity|].
    cbn [fst snd] in H. destruct a; try discriminate H. apply ok_inj in H. injection H as <- <-. rewrite IH. reflexivity.
  - intros [-> [H1 H2]]. apply as_kwargs_strs; assumption.
Qed.

Lemma filter_strs items : filter (wanted_entry true) (strs items) = strs (others [$"fieldtype"] items).
Proof.
  unfold strs, others. induction items as [|[a b] l IH]; [reflexivity|]. cbn [map filter fst snd]. unfold wanted_entry at 1.
  cbn [andb fst is_fieldtype smem existsb]. rewrite Bool.orb_false_r.
  assert (Hs : str_eqb a $"fieldtype" = str_eqb $"fieldtype" a).
  { destruct (str_eqb_spec a $"fieldtype") as [->|H1]; [reflexivity|]. destruct (str_eqb_spec $"fieldtype" a); congruence. }
  first [rewrite Hs|idtac]. destruct (str_eqb $"fieldtype" a); cbn [negb]; [exact IH|]. cbn [map fst snd]. f_equal. exact IH.
Qed.

Lemma unfiltered l kw : filter (wanted_entry true) l = strs kw -> exists items, l = strs items /\ kw = others [$"fieldtype"] items.
Proof.
  intros H. assert (Hi : exists items, l = strs items).
  { revert kw H. induction l as [|[a x] l IH]; intros kw H; [exists []; reflexivity|]. cbn [filter] in H. unfold wanted_entry at 1 in H.
    cbn [fst] in H. destruct (is_fieldtype a) eqn:Ha; cbn [andb negb] in H.
    - destruct (IH _ H) as [it ->]. destruct a; try discriminate Ha. exists ((s, x) :: it). reflexivity.
    - destruct kw as [|[b y] kw]; [discriminate H|]. cbn [strs map fst snd] in H. injection H as -> _ H.
      destruct (IH _ H) as [it ->]. exists ((b, x) :: it). reflexivity. }
  destruct Hi as [items ->]. exists items. split; [reflexivity|]. rewrite filter_strs in H.
  unfold strs in H. clear -H. remember (others _ items) as l eqn:Hl. clear Hl. revert kw H.
  induction l as [|[a x] l IH]; intros [|[b y] kw] H; try discriminate H; [reflexivity|]. cbn [map fst snd] in H.
  injection H as -> -> H. f_equal. symmetry. symmetry. apply IH, H.
Qed.

Lemma strs_forall2 (P : val -> val -> Prop) l l' : Forall2 (same P) (strs l) (strs l') <-> Forall2 (same P) l l'.
Proof.
  unfold strs. split; revert l'.
  - induction l as [|[a x] l IH]; intros [|[b y] l'] H; cbn [map] in H; inversion H; subst; constructor; auto.
    match goal with H : same P _ _ |- _ => destruct H as [H1 H2] end. cbn in H1, H2. injection H1 as ->. split; [reflexivity|exact H2].
  - intros l' H. induction H as [|[a x] [b y] l l' [H1 H2] _ IH]; cbn [map]; constructor; [|exact IH].
    cbn in *. subst b. split; [reflexivity|exact H2].
Qed.

(** Entries are read one by one. *)
Lemma each_same E n l : forall l',
  (forall kv, In kv l -> forall w, cp E n (snd kv) = Ok w <-> built E n (snd kv) w) ->
  (each (fun kv : val * val => do w <- cp E n (snd kv); Ok (fst kv, w)) l = Ok l' <-> Forall2 (same (built E n)) l l').
Proof.
  intros l' Hk. rewrite each_ok. split.
  - intros H. induction H as [|[a x] [b y] l l' H _ IH]; constructor; [|apply IH; intros; apply Hk; right; assumption].
    apply bind_Ok in H. destruct H as [w [Hw H]]. apply ok_inj in H. injection H as <- <-. split; [reflexivity|].
    apply (Hk _ (or_introl eq_refl)). exact Hw.
  - intros H. induction H as [|[a x] [b y] l l' [H1 H2] _ IH]; constructor; [|apply IH; intros; apply Hk; right; assumption].
    apply (Hk _ (or_introl eq_refl)) in H2. rewrite H2. cbn in *. congruence.
Qed.

Lemma each_built E n l : forall l', (forall x, In x l -> forall w, cp E n x = Ok w <-> built E n x w) ->
  (each (cp E n) l = Ok l' <-> Forall2 (built E n) l l').
Proof.
  intros l' Hk. rewrite each_ok. split; intros H; induction H as [|a b l l' H _ IH]; constructor;
    try (apply IH; intros; apply Hk; right; assumption); apply (Hk _ (or_introl eq_refl)); exact H.
Qed.

Definition reading (E : env) (n : nat) (l : list (val * val)) : res val :=
  match sget $"fieldtype" l with
  | None => do ys <- snd (crun E n false l); Ok (VDict false ys)
  | Some t => do c <- class_named t; do _ <- as_kwargs (sdel $"fieldtype" l);
              do ys <- snd (crun E n true l); do kw <- as_kwargs ys; do f <- init E (clone E n) c kw; Ok (VField f)
  end.
Lemma cp_unfold_surr E n i s ver l : construct_parameter E n (VSurr i s ver l)
  = match sget $"fieldtype" l with
    | None => match crun E n false l with
              | (l', Ok ys) => (VSurr i s ver l', Ok (VDict false ys))
              | (l', Raise e) => (VSurr i s ver l', Raise e)
              end
    | Some t =>
        match class_named t with
        | Raise e => (VSurr i s ver (sdel $"fieldtype" l), Raise e)
        | Ok c =>
            match as_kwargs (sdel $"fieldtype" l) with
            | Raise e => (VSurr i s ver (sdel $"fieldtype" l), Raise e)
            | Ok _ =>
                match crun E n true l with
                | (l', Raise e) => (VSurr i s ver l', Raise e)
                | (l', Ok ys) =>
                    (VSurr i s ver l', do kw <- as_kwargs ys; do f <- init E (clone E n) c kw; Ok (VField f))
                end
            end
        end
    end.
Proof. reflexivity. Qed.

Lemma cp_reading E n v l : entries v l -> cp E n v = reading E n l.
Proof.
  intros [[o ->]|[i [s [ver ->]]]]; unfold cp, reading; [rewrite cp_unfold|rewrite cp_unfold_surr];
    (destruct (sget $"fieldtype" l) as [t|];
     [destruct (class_named t) as [c|]; [|reflexivity]; cbn [bind]; destruct (as_kwargs (sdel $"fieldtype" l)) as [u|]; [|reflexivity];
      cbn [bind]; destruct (crun E n true l) as [l2 [ys|e]]; reflexivity
     |destruct (crun E n false l) as [l2 [ys|e]]; reflexivity]).
Qed.

Lemma class_named_ok t c : class_named t = Ok c <-> t = VStr (cls_name c).
Proof.
  split; [|intros ->; cbn [class_named]; rewrite CloneFacts.find_cls_name; reflexivity].
  destruct t; cbn -[find_cls]; intros H;
    repeat match type of H with (match ?b with _ => _ end) = _ => destruct b eqn:?; try discriminate H end; try discriminate H.
  apply ok_inj in H. subst. f_equal. symmetry. apply find_cls_Some. assumption.
Qed.

Lemma reading_built E n l : (forall kv, In kv l -> forall w, cp E n (snd kv) = Ok w <-> built E n (snd kv) w) ->
  forall v w, entries v l -> (reading E n l = Ok w <-> built E n v w).
Proof.
  intros Hk v w Hv. unfold reading. destruct (sget $"fieldtype" l) as [t|] eqn:Hg.
  - split.
    + intros H. apply bind_Ok in H. destruct H as [c [Hc H]]. apply class_named_ok in Hc. subst t.
      apply bind_Ok in H. destruct H as [u [Hu H]]. apply bind_Ok in H. destruct H as [ys [Hys H]].
      apply bind_Ok in H. destruct H as [kw [Hkw H]]. apply bind_Ok in H. destruct H as [f [Hf H]]. apply ok_inj in H. subst w.
      rewrite cp_run in Hys. apply each_same in Hys; [|intros kv Hi; apply filter_In in Hi; apply Hk, Hi].
      apply as_kwargs_iff in Hkw. destruct Hkw as [-> [H1 H2]].
      assert (Hl : exists kw0, filter (wanted_entry true) l = strs kw0).
      { remember (filter (wanted_entry true) l) as m eqn:Hm. clear -Hys. revert kw Hys. induction m as [|[a x] m IH]; intros kw H; [exists []; reflexivity|].
        destruct kw as [|[b y] kw]; cbn [strs map] in H; inversion H; subst. destruct (IH _ H5) as [m' ->].
        destruct H3 as [H3 _]. cbn in H3. subst a. exists ((b, x) :: m'). reflexivity. }
      destruct Hl as [kw0 Hl]. destruct (unfiltered _ _ Hl) as [items [-> ->]]. rewrite Hl in Hys. apply strs_forall2 in Hys.
      rewrite sget_strs in Hg.
      assert (Hn : forall x, x <> $"fieldtype" -> In x (map fst items) -> In x (map fst kw)).
      { intros x Hx Hi. apply in_map_iff in Hi. destruct Hi as [[a y] [<- Hi]]. cbn [fst] in *.
        assert (Ho : In (a, y) (others [$"fieldtype"] items)) by (apply In_others; split; [exact Hi|intros [E1|[]]; apply Hx; symmetry; exact E1]).
        clear -Hys Ho. induction Hys as [|p q l l' [H _] _ IH]; [destruct Ho|]. destruct Ho as [->|Ho]; [left; symmetry; exact H|right; auto]. }
      eapply built_field; [exact Hv|exact Hg| | |exact Hys|exact Hf]; intros Hx; (apply Hn in Hx; [contradiction|discriminate]).
    + intros H. inversion H; subst.
      * assert (Hl : l = strs items).
        { destruct Hv as [[o ->]|[i [s [ver ->]]]]; destruct H0 as [[o' E1]|[i' [s' [ver' E1]]]]; try discriminate E1; injection E1; auto. }
        subst l. rewrite sget_strs, H1 in Hg. injection Hg as <-. cbn [class_named]. rewrite CloneFacts.find_cls_name. cbn [bind].
        destruct (sdel_strs $"fieldtype" items) as [l' [Hl Hi]]. rewrite Hl.
        assert (Hin : forall x l, (forall y, In y l -> In y items) -> In x (map fst l) -> In x (map fst items)).
        { intros x l Hy Hx. apply in_map_iff in Hx. destruct Hx as [y [<- Hx]]. apply in_map. auto. }
        rewrite as_kwargs_strs by (intros Hx; apply (Hin _ _ Hi) in Hx; contradiction). cbn [bind].
        rewrite cp_run, filter_strs.
        assert (He : each (fun kv => do w <- cp E n (snd kv); Ok (fst kv, w)) (strs (others [$"fieldtype"] items)) = Ok (strs kw)).
        { apply each_same; [|apply strs_forall2; exact H4].
          intros kv Hkv. rewrite <- filter_strs in Hkv. apply filter_In in Hkv. apply Hk, Hkv. }
        rewrite He. cbn [bind].
        assert (Hq : map fst kw = map fst (others [$"fieldtype"] items)).
        { clear -H4. induction H4 as [|a b l l' [H _] _ IH]; [reflexivity|]. cbn. congruence. }
        rewrite as_kwargs_strs; [cbn [bind]; rewrite H5; reflexivity|rewrite Hq|rewrite Hq];
          (intros Hx; apply Hin in Hx; [contradiction|]; intros y Hy; unfold others in Hy; apply filter_In in Hy; apply Hy).
      * exfalso. assert (Hl : l = l0).
        { destruct Hv as [[o ->]|[i [s [ver ->]]]]; destruct H0 as [[o' E1]|[i' [s' [ver' E1]]]]; try discriminate E1; injection E1; auto. }
        subst l0. assert (Hn : sget $"fieldtype" l = None) by (apply StructProofs.sget_None; assumption). congruence.
      * destruct Hv as [[o E1]|[i [s [ver E1]]]]; discriminate E1.
      * destruct Hv as [[o E1]|[i [s [ver E1]]]]; discriminate E1.
      * destruct (H0 _ Hv).
  - rewrite cp_run. rewrite (filter_all (wanted_entry false)) by reflexivity. split.
    + intros H. apply bind_Ok in H. destruct H as [ys [Hys H]]. apply ok_inj in H. subst w.
      eapply built_dict; [exact Hv|apply StructProofs.sget_None; exact Hg|]. apply each_same in Hys; [exact Hys|exact Hk].
    + intros H. inversion H; subst.
      * exfalso. assert (Hl : l = strs items).
        { destruct Hv as [[o ->]|[i [s [ver ->]]]]; destruct H0 as [[o' E1]|[i' [s' [ver' E1]]]]; try discriminate E1; injection E1; auto. }
        subst l. rewrite sget_strs, H1 in Hg. discriminate Hg.
      * assert (Hl : l = l0).
        { destruct Hv as [[o ->]|[i [s [ver ->]]]]; destruct H0 as [[o' E1]|[i' [s' [ver' E1]]]]; try discriminate E1; injection E1; auto. }
        subst l0. apply each_same in H2; [|exact Hk]. rewrite H2. reflexivity.
      * destruct Hv as [[o E1]|[i [s [ver E1]]]]; discriminate E1.
      * destruct Hv as [[o E1]|[i [s [ver E1]]]]; discriminate E1.
      * destruct (H0 _ Hv).
Qed.

Lemma cp_built E n v : forall w, cp E n v = Ok w <-> built E n v w.
Proof.
  induction v as [v IH] using val_ind'. intros w.
  assert (Hd : forall l, entries v l -> cp E n v = Ok w <-> built E n v w).
  { intros l Hl. rewrite (cp_reading _ _ _ _ Hl). apply reading_built; [|exact Hl]. intros kv Hkv. apply IH.
    destruct Hl as [[o ->]|[i [s [ver ->]]]]; cbn [subvals]; apply in_flat_map; exists kv; cbn; auto. }
  assert (Ho : (forall l, ~ entries v l) -> (forall l, v <> VList l) -> (forall l, v <> VTuple l) -> cp E n v = Ok v -> cp E n v = Ok w <-> built E n v w).
  { intros H1 H2 H3 ->. split.
    - intros H. apply ok_inj in H. subst w. apply built_other; assumption.
    - intros H. inversion H; subst; try (edestruct H1; eassumption); try (edestruct H2; reflexivity); try (edestruct H3; reflexivity); reflexivity. }
  destruct v; try (apply Ho; [intros l0 [[o E1]|[i0 [s0 [v0 E1]]]]; discriminate E1|discriminate|discriminate|reflexivity]).
  - rewrite cp_list. split.
    + intros H. apply bind_Ok in H. destruct H as [l' [Hl H]]. apply ok_inj in H. subst w. constructor. apply each_built in Hl; [exact Hl|]. exact IH.
    + intros H. inversion H; subst; try (destruct H0 as [[o E1]|[i0 [s0 [v0 E1]]]]; discriminate E1); [|destruct (H1 _ eq_refl)].
      apply each_built in H1; [|exact IH]. rewrite H1. reflexivity.
  - rewrite cp_tuple. split.
    + intros H. apply bind_Ok in H. destruct H as [l' [Hl H]]. apply ok_inj in H. subst w. constructor. apply each_built in Hl; [exact Hl|]. exact IH.
    + intros H. inversion H; subst; try (destruct H0 as [[o E1]|[i0 [s0 [v0 E1]]]]; discriminate E1); [|destruct (H2 _ eq_refl)].
      apply each_built in H1; [|exact IH]. rewrite H1. reflexivity.
  - apply (Hd l). left. eauto.
  - apply (Hd l). right. eauto.
Qed.
(** @prop C82 A field is returned as it is.  The name of a class gives a field of that class made without
    arguments.  Any other text, a dict without ['fieldtype'] or with an unknown one, and any other value
    is refused with ValueError. *)
Lemma reconstruct_dispatch :
  forall E n,
    (forall p k, reconstruct E n (VField (Fld p k)) = Ok (Fld p k))
    /\ (forall c, reconstruct E n (VStr (cls_name c)) = init E (clone E n) c [])
    /\ (forall s, (forall c, cls_name c <> s) -> reconstruct E n (VStr s) = py ValueError)
    /\ (forall o l, (forall v, ~ In (VStr $"fieldtype", v) l) -> reconstruct E n (VDict o l) = py ValueError)
    /\ (forall v, (forall p k, v <> VField (Fld p k)) -> (forall s, v <> VStr s) -> (forall o l, v <> VDict o l) ->
         (forall i s ver l, v <> VSurr i s ver l) -> reconstruct E n v = py ValueError).
Proof.
  intros E n. repeat split.
  - intros c. unfold reconstruct. cbn [reconstruct_st snd class_named]. rewrite CloneFacts.find_cls_name. reflexivity.
  - intros s Hs. unfold reconstruct. cbn [reconstruct_st snd class_named].
    destruct (find_cls s) as [c|] eqn:Hc; [|reflexivity]. apply find_cls_Some in Hc. destruct (Hs _ Hc).
  - intros o l Hl. unfold reconstruct. cbn [reconstruct_st].
    destruct (sget $"fieldtype" l) as [v|] eqn:Hg; [|reflexivity]. exfalso.
    assert (Hn : sget $"fieldtype" l = None) by (apply StructProofs.sget_None; exact Hl). congruence.
  - intros v H1 H2 H3 H4. unfold reconstruct. destruct v; try reflexivity.
    + destruct (H2 _ eq_refl).
    + destruct (H3 _ _ eq_refl).
    + destruct (H4 _ _ _ _ eq_refl).
    + destruct f as [i|p k]; [reflexivity|destruct (H1 _ _ eq_refl)].
Qed.
(** @example
Example C82_example :
  exists p k, reconstruct env0 1 (VStr $"integer") = Ok (Fld p k) /\ k = KInteger None None
    /\ reconstruct env0 1 (VStr $"number") = py ValueError /\ (forall c, cls_name c <> $"number").
Proof. do 2 eexists. repeat split. intros c. destruct c; discriminate. Qed.
@end *)

(** @prop C82 A dict with ['fieldtype'] gives a field when, and only when, the entry names a class, the
    other entries, with every specification nested in them replaced by its field, are acceptable
    arguments of the constructor of that class, and then it gives the field that the constructor makes. *)
Lemma reconstruct_exact :
  forall E n o items f,
    reconstruct E n (VDict o (map (fun kv => (VStr (fst kv), snd kv)) items)) = Ok f
    <-> exists c kw,
          aget $"fieldtype" items = Some (VStr (cls_name c))
          /\ ~ In $"cls" (map fst items) /\ ~ In $"self" (map fst items)
          /\ Forall2 (fun a b => fst a = fst b /\ built E n (snd a) (snd b)) (others [$"fieldtype"] items) kw
          /\ init E (clone E n) c kw = Ok f.
Proof.
  intros E n o items f. fold (strs items).
  assert (Hr : forall g, reconstruct E n (VDict o (strs items)) = Ok g
    <-> cp E n (VDict o (strs items)) = Ok (VField g) /\ aget $"fieldtype" items <> None).
  { intros g. unfold reconstruct, cp. cbn [reconstruct_st]. rewrite sget_strs. destruct (aget $"fieldtype" items) as [t|].
    - destruct (construct_parameter E n (VDict o (strs items))) as [s' [v|e]]; cbn [snd].
      + split.
        * destruct v; try discriminate. intros H. apply ok_inj in H. subst. split; [reflexivity|discriminate].
        * intros [H _]. apply ok_inj in H. subst v. reflexivity.
      + split; [discriminate|intros [H _]; discriminate H].
    - cbn [snd]. split; [discriminate|intros [_ H]; congruence]. }
  rewrite Hr, cp_built. split.
  - intros [H _]. inversion H; subst.
    assert (Hi : items0 = items).
      { destruct H1 as [[o' E1]|[i' [s' [ver' E1]]]]; [|discriminate E1]. injection E1 as _ E1. clear -E1. unfold strs in E1.
        revert items0 E1. induction items as [|[a x] l IH]; intros [|[b y] l'] E1; try discriminate E1; [reflexivity|].
        cbn in E1. injection E1 as -> -> E1. f_equal. apply IH, E1. }
      subst items0. exists c, kw. auto.
  - intros [c [kw [H1 [H2 [H3 [H4 H5]]]]]]. split; [|congruence]. eapply built_field; eauto. left. eauto.
Qed.
(** @example
Example C82_nested_example :
  exists p q, reconstruct env0 1 (VDict false
      [(VStr $"fieldtype", VStr $"sequence"); (VStr $"item", VDict false [(VStr $"fieldtype", VStr $"integer"); (VStr $"minimum", VInt 1)])])
    = Ok (Fld p (KSequence (Fld q (KInteger (Some 1%Z) None)) None None false)).
Proof. do 2 eexists. reflexivity. Qed.
@end *)
