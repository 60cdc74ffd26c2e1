(** * Values sent through JSON by fields (C80). *)
(* @imports Spec Demo RtSpec JsonSpec IoSpec CarrySpec *)
From Coq Require Import ZifyBool ZifyN ZifyNat FinFun.
From Verif Require Import PyBaseFacts Induct Spec Demo ProcessFacts ScalarProofs NumFacts NumProofs StructFacts
  SeqProofs MapProofs StructProofs ConfProofs CalSpec CalFacts CalText CalProofs RtSpec RtProofs StProofs YamlProofs JsonProofs IoProofs CarrySpec.
Open Scope Z_scope.

(** ** The texts of dates and numbers *)

Definition low (s : str) : Prop := Forall (fun c => (c < 127)%N) s.

Lemma low_carried s : low s -> carried s.
Proof.
  intros H. unfold low in H. rewrite Forall_forall in H. split.
  - intros c Hc. specialize (H c Hc). cbn beta in H. lia.
  - intros a h l b -> Hx. assert (Hh : In h (a ++ h :: l :: b)) by (apply in_or_app; right; left; reflexivity).
    specialize (H h Hh). cbn beta in H. lia.
Qed.

Lemma low_app a b : low a -> low b -> low (a ++ b).
Proof. intros. apply Forall_app; auto. Qed.

Lemma low_d2 z : 0 <= z <= 99 -> low (d2 z).
Proof.
  intros H. unfold d2, low. constructor; [|constructor; [|constructor]].
  - assert (0 <= z / 10 < 10) by (split; [apply Z.div_pos; lia|apply Z.div_lt_upper_bound; lia]). lia.
  - assert (0 <= z mod 10 < 10) by (apply Z.mod_pos_bound; lia). lia.
Qed.

Lemma low_Z z : low (Z_text z).
Proof. apply Forall_forall. intros c Hc. apply Z_text_chars in Hc. lia. Qed.

Lemma low_dec d : low (dec_text d).
Proof. eapply Forall_impl; [|apply safe_dec_text]. intros c [_ [_ H]]. exact H. Qed.

Lemma month_bounds y m n : month_length y m n -> 1 <= m <= 12 /\ n <= 31.
Proof.
  intros H. inversion H; subst; cbn [In] in *; lia.
Qed.

Lemma low_date pad d : existing_day d -> low (date_text pad d).
Proof.
  intros [Hy [n [Hn Hd]]]. apply month_bounds in Hn. unfold date_text, year_text.
  assert (0 <= d_year d / 100 < 100) by (split; [apply Z.div_pos; lia|apply Z.div_lt_upper_bound; lia]).
  assert (0 <= d_year d mod 100 < 100) by (apply Z.mod_pos_bound; lia).
  apply low_app; [destruct pad; [apply low_app; apply low_d2; lia|apply low_Z]|].
  apply low_app; [repeat constructor|]. apply low_app; [apply low_d2; lia|]. apply low_app; [repeat constructor|]. apply low_d2. lia.
Qed.

Lemma low_tod t : existing_time t -> low (tod_text t).
Proof.
  intros [H1 [H2 [H3 _]]]. unfold tod_text. apply low_app; [apply low_d2; lia|]. apply low_app; [repeat constructor|].
  apply low_app; [apply low_d2; lia|]. apply low_app; [repeat constructor|]. apply low_d2. lia.
Qed.

Lemma low_datetime pad dt : existing dt -> low (datetime_text pad dt).
Proof.
  intros [H1 H2]. unfold datetime_text. apply low_app; [apply low_date, H1|]. apply low_app; [repeat constructor|].
  apply low_app; [apply low_tod, H2|]. repeat constructor.
Qed.

(** ** Scalars *)

Lemma scalar_outbound_inv {F} E p (k : kindP val F) unser ser_v anc v w :
  process_scalar E p k unser ser_v Inbound false anc v = Ok v ->
  v <> VNone -> process_scalar E p k unser ser_v Outbound true anc v = Ok w -> ser_v v = Ok w.
Proof.
  unfold process_scalar. intros H Hv Hw. cbn [phase_eqb andb] in *.
  destruct (is_null _ _ _ _ _) as [nul|]; cbn [bind] in *; [|discriminate].
  destruct nul; [congruence|].
  destruct (match preprocess E p k v with Ok w0 => Ok w0 | Raise _ => construct_invalid k anc end) as [v2|]; cbn [bind] in *; [|discriminate].
  destruct (if is_none (p_constant p) then _ else _) as [c|]; cbn [bind] in *; [|discriminate].
  destruct c; cbn [negb] in *; [|destruct k; discriminate].
  destruct (validate_value E k anc v2) as [v3|]; cbn [bind] in *; [|discriminate].
  injection H as ->. destruct (ser_v v) as [u|[e|x]]; [exact Hw|discriminate|]. destruct x; discriminate.
Qed.

(** JSON carries the serialized form of a scalar unchanged. *)
Lemma scalar_json E desc recon p (k : kind) v w :
  simple k = true -> json_portable E p k -> v <> VNone ->
  scalar_conf E k v -> faithful E desc recon k v -> json_faithful E desc k v ->
  serialize_value E desc k v = Ok w -> json E w w.
Proof.
  intros Hk Hp Hv Hc [Hf|Hf] [Hj|Hj] Hs; try contradiction.
  destruct k; try discriminate Hk; cbn in Hc, Hj, Hp; try contradiction.
  - apply ok_inj in Hs. subst w. apply document_json, Hj.
  - destruct Hc as [b ->]. apply ok_inj in Hs. subst w. constructor.
  - destruct Hf as [d [-> [Hd _]]]. apply ok_inj in Hs. subst w. apply json_text, low_carried, low_date, Hd.
  - destruct Hf as [dt [i [u [-> [He _]]]]]. cbn [serialize_value] in Hs. cbv zeta in Hs. destruct (tz_is _ TzUTC).
    + apply ok_inj in Hs. subst w. apply json_text, low_carried, low_datetime, He.
    + destruct (astimezone _ _ _ _) as [r|] eqn:Hr; [|discriminate]. apply ok_inj in Hs. subst w.
      apply json_text, low_carried, low_datetime. apply (to_utc_spec _ _ _ _ He Hr).
  - destruct Hc as [d [-> _]]. apply ok_inj in Hs. subst w. apply json_text, low_carried, low_dec.
  - destruct Hf as [f [d [-> [Hd _]]]]. cbn [serialize_value] in Hs. apply document_json, (Hj f w eq_refl Hs).
  - destruct Hc as [s [-> _]]. apply ok_inj in Hs. subst w. apply json_text, Hj. reflexivity.
  - apply ok_inj in Hs. subst w. apply document_json, Hj.
  - destruct Hc as [x [-> _]]. apply ok_inj in Hs. subst w. destruct x; try (apply json_finite; [exact I|apply Hj; [reflexivity|exact I]]);
      apply json_special; intros [].
  - destruct Hc as [z [-> _]]. apply ok_inj in Hs. subst w. constructor.
  - destruct Hf as [s [_ [-> | [Hns Ho]]]].
    + apply ok_inj in Hs. subst w. apply json_text, Hj. left. reflexivity.
    + assert (Hw : w = VStr s); [|subst w; apply json_text, Hj; right; exact Ho].
      cbn [serialize_value] in Hs. destruct v; try (rewrite Ho in Hs; apply ok_inj in Hs; congruence). exfalso. eapply Hns. reflexivity.
  - destruct Hc as [s [-> _]]. apply ok_inj in Hs. subst w. apply json_text, Hj. reflexivity.
  - destruct Hf as [t [-> [Ht _]]]. apply ok_inj in Hs. subst w. apply json_text, low_carried, low_tod, Ht.
  - destruct Hc as [s [-> _]]. apply ok_inj in Hs. subst w. apply json_text, Hj. reflexivity.
  - destruct Hc as [s [-> _]]. apply ok_inj in Hs. subst w. apply json_text, Hj. reflexivity.
Qed.

(** ** Whole schemas *)

(** [v] is serialized as [w], JSON makes [w'] of it, which is unserialized as [v]. *)
Definition ships E desc recon n (g : field) (v w w' : val) : Prop :=
  trips E desc recon n g v w /\ json E w w'
  /\ (forall anc, process_gen E desc recon n g false Inbound true anc w' = Ok v)
  /\ (forall p k, g = Fld p k -> unchanged k = true -> w' = v).

Lemma unchanged_simple (k : kind) : unchanged k = true -> simple k = true.
Proof. destruct k; intros H; try discriminate H; reflexivity. Qed.

Lemma veq_text L (s : str) : veq L (VStr s) (VStr s) = true.
Proof. cbn. apply str_eqb_refl. Qed.

(** A key comes back from its text. *)
Lemma key_ships E desc recon n q (kd : kind) a a' b' :
  p_preprocessor q = None -> (normalises kd = true -> p_constant q = VNone) ->
  (forall anc unser ser_v, process_scalar E q kd unser ser_v Inbound false anc a = Ok a) ->
  json_key kd -> a <> VNone -> scalar_conf E kd a -> faithful E desc recon kd a -> (forall d, a = VDec d -> dec_is_nan d = false) ->
  ships E desc recon n (Fld q kd) a a' b' ->
  exists t, key_text E a' t /\ carried t /\ (forall anc, process_gen E desc recon n (Fld q kd) false Inbound true anc (VStr t) = Ok a)
            /\ veq (e_local E) a a = true.
Proof.
  intros Hp Hnc Hrun Hk Ha Hc Hf Hnan [Ht [Hj [Hi Hun]]]. destruct Ht as [Ho [_ Hform]]. destruct (Hform q kd eq_refl) as [Hsame Hwr].
  assert (Hstr : forall s, a' = VStr s -> veq (e_local E) a a = true ->
    exists t, key_text E a' t /\ carried t /\ (forall anc, process_gen E desc recon n (Fld q kd) false Inbound true anc (VStr t) = Ok a)
            /\ veq (e_local E) a a = true).
  { intros s -> Hv. exists s. split; [constructor|]. inversion Hj as [| | | | |x Hx| | |? l ? Hl]; subst; [|discriminate Hl].
    split; [exact Hx|]. split; [exact Hi|exact Hv]. }
  assert (Hw : written kd = true -> exists t, key_text E a' t /\ carried t
            /\ (forall anc, process_gen E desc recon n (Fld q kd) false Inbound true anc (VStr t) = Ok a) /\ veq (e_local E) a a = true).
  { intros Hkw. destruct (Hwr Hkw) as [[-> _]|[_ [s [->| ->]]]]; [congruence| |].
    - apply (Hstr s eq_refl). apply (veq_written E desc recon kd); auto.
    - inversion Hj as [| | | | | | | |? l ? Hl]; discriminate Hl. }
  assert (Hs : unchanged kd = true -> (exists s, a = VStr s) -> exists t, key_text E a' t /\ carried t
            /\ (forall anc, process_gen E desc recon n (Fld q kd) false Inbound true anc (VStr t) = Ok a) /\ veq (e_local E) a a = true).
  { intros Hu [s ->]. apply (Hstr s); [exact (Hsame Hu)|apply veq_text]. }
  destruct kd; cbn in Hk; try contradiction; try (apply Hw; reflexivity); cbn in Hc.
  - destruct Hc as [s [-> _]]. apply Hs; eauto.
  - destruct Hc as [x [Hx Hv]]. destruct (Hk x Hx) as [s ->]. apply Hs; [reflexivity|]. destruct a; try discriminate Hv. eauto.
  - destruct Hc as [z [-> _]]. rewrite (Hsame eq_refl) in *. exists (Z_text z). split; [constructor|]. split; [apply low_carried, low_Z|]. split.
    + intros anc. rewrite process_Fld. unfold process_body. cbn [kmap].
      assert (Hu : forall path, unserialize_value E recon (KInteger mn mx : kind) path (VStr (Z_text z)) = Ok (VInt z)).
      { intros path. cbn [unserialize_value to_int]. rewrite (parse_int_text _ _ _ (integer_str_is_text z)). reflexivity. }
      assert (H0 := fun path => scalar_inbound (F := field) E q (KInteger mn mx) (unserialize_value E recon (KInteger mn mx : kind))
               (serialize_value E desc (KInteger mn mx : kind)) path (VInt z) (VStr (Z_text z)) (Hrun _ _ _)
               ltac:(discriminate) ltac:(discriminate) eq_refl (Hu path)).
      exact (H0 _).
    + cbn. apply Qeq_bool_iff. reflexivity.
  - destruct Hc as [s [-> _]]. apply Hs; eauto.
  - destruct Hc as [s [-> _]]. apply Hs; eauto.
  - destruct Hc as [s [-> _]]. apply Hs; eauto.
Qed.

(** Lists are accepted for tuples. *)
Lemma tuple_loop_list E (cs : list child) ph ser anc : forall i l,
  tuple_loop E cs ph ser anc i (VList l) = tuple_loop E cs ph ser anc i (VTuple l).
Proof. induction cs as [|c cs IH]; intros i l; cbn [tuple_loop]; [reflexivity|]. rewrite IH. reflexivity. Qed.

Lemma tuple_moves_list E p (cs : list child) ph anc l l' :
  p_preprocessor p = None -> length l = length cs -> length l = length l' ->
  Forall2 (fun c xy => moves c ph (fst xy) (snd xy)) cs (combine l l') ->
  process_tuple E p cs ph true anc (VList l) = Ok (VTuple l').
Proof.
  intros Hp Hlen Hlen' H. assert (Ht := tuple_moves E p cs ph anc l l' Hp Hlen Hlen' H). unfold process_tuple in *.
  rewrite is_null_some in * by discriminate. cbn [bind] in *. unfold pre_raw in *. rewrite Hp in *. cbn [bind py_iter] in *.
  rewrite tuple_loop_list. exact Ht.
Qed.

Lemma struct_in E desc recon n N (d : list (str * field)) ko strict l path idn :
  NoDup (map fst d) -> match ko with Some o => NoDup o /\ incl o (map fst d) | None => True end ->
  (ko <> None -> idn = VNone) ->
  (forall kf, In kf d -> (forall q, fparams E (snd kf) = Some q -> p_ignore_null q = false)
                         /\ (fparams E (snd kf) = None -> forall v, ~ conforms E n (snd kf) v)) ->
  struct_conf E (map (fun kf => (fst kf, (snd kf, conforms E n (snd kf)))) d) ko l ->
  forall l',
  Forall2 (fun a b => fst a = fst b
    /\ forall name f, fst a = VStr name -> In (name, f) d -> forall anc, process_gen E desc recon N f false Inbound true anc (snd b) = Ok (snd a)) l l' ->
  let defn := map (fun kf => (fst kf, (snd kf, process_gen E desc recon N (snd kf) false))) d in
  struct_run E defn strict ko idn false Inbound true path l' = Ok (VDict (has_order ko) l).
Proof.
  intros Hnd Hko Hid Hd [Hsub [Hent Habs]] l' Hl defn.
  assert (Hk1 : map fst defn = map fst d) by (unfold defn; rewrite map_map; reflexivity).
  assert (Hfst : map fst l = map fst l').
  { clear - Hl. induction Hl as [|a b l l' [H _] _ IH]; cbn [map]; [reflexivity|]. f_equal; assumption. }
  rewrite map_map in Hsub, Habs. cbn [fst] in Hsub, Habs.
  assert (Hin : forall k c, In (k, c) defn -> exists f, In (k, f) d /\ c = (f, process_gen E desc recon N f false)).
  { intros k c Hx. apply in_map_iff in Hx. destruct Hx as [[k' f] [[= <- <-] Hx]]. eauto. }
  assert (Hparams : forall k f y, In (VStr k, y) l -> In (k, f) d -> exists q, fparams E f = Some q /\ p_ignore_null q = false).
  { intros k f y Hy Hf. destruct (Hd _ Hf) as [H1 H2]. cbn [snd] in H1, H2. destruct (fparams E f) as [q|]; [eauto|].
    destruct (Hent k y Hy) as [c [Hc Hcy]]. exfalso. apply in_map_iff in Hc. destruct Hc as [[k' f'] [[= <- <-] Hf']].
    assert (f' = f) by (apply aget_NoDup_In in Hf; [|exact Hnd]; apply aget_NoDup_In in Hf'; [|exact Hnd]; congruence).
    subst f'. exact (H2 eq_refl y Hcy). }
  assert (Habs' : forall k c, In k match ko with Some (k :: ks) => k :: ks | _ => map fst defn end ->
            In (k, c) defn -> ~ In (VStr k) (map fst l) ->
            exists q, fparams E (fst c) = Some q /\ p_required q = false /\ p_default q = VNone).
  { intros k c Hk Hc Hn. destruct (Hin k c Hc) as [f [Hf ->]]. rewrite Hk1 in Hk.
    destruct (Habs k (f, conforms E n f) Hk) as [q [Hq Hor]]; [|exact Hn|].
    - apply in_map_iff. exists (k, f). auto.
    - cbn [fst] in Hq |- *. apply defined_fparams in Hq. exists q. split; [exact Hq|].
      destruct Hor as [Hx|Hor]; [|exact Hor]. destruct (Hd _ Hf) as [H1 _]. cbn [snd] in H1. rewrite (H1 q Hq) in Hx. discriminate. }
  change (map (fun x : str * field => fst x) d) with (map fst d) in Hsub. rewrite <- Hk1 in Hsub, Hnd, Hko.
  apply struct_run_moves; [exact Hnd|exact Hko|exact Hid| | |].
  - rewrite <- Hfst. exact Hsub.
  - apply Forall2_flip' in Hl. eapply Forall2_In; [exact Hl|]. cbv beta. intros [a y] [b y'] _ Ha [Hab Ht]. cbn [fst snd] in *.
    split; [congruence|]. subst b. intros k c -> Hc. destruct (Hin k c Hc) as [f [Hf ->]]. cbn [fst]. split; [eapply Hparams; eauto|].
    exact (Ht k f eq_refl Hf).
  - rewrite <- Hfst. exact Habs'.
Qed.

(** What a Surrogate field inside another field is given goes through JSON, if [more] placeholders may be
    followed. *)
Definition carries_beyond (E : env) desc recon (more : nat) (k : kind) (x : val) : Prop :=
  (faithful E desc recon k x /\ json_faithful E desc k x)
  /\ forall valid, k = KSurrogate valid -> forall p N, p_preprocessor p = None -> p_constant p = VNone -> x <> VNone ->
       (more <= N)%nat -> exists w w', ships E desc recon N (Fld p (KSurrogate valid)) x w w'.

Lemma ships_beyond E desc recon n more f v :
  throughout E well_keyed f -> throughout E (tidy E) f -> throughout E (portable_beyond E) f -> throughout E (json_portable E) f ->
  conforms E n f v -> (forall k x, meets E f v k x -> carries_beyond E desc recon more k x) ->
  exists w w', ships E desc recon (n + more) f v w w'.
Proof.
  intros [Hf Hu] [Ht Htu] [Hpo Hpou] [Hjp Hjpu]. revert f Hf Ht Hpo Hjp v.
  induction n as [n IHn] using lt_wf_ind.
  intros f. induction f as [i|p k IH] using field_ind'; intros Hf Ht Hpo Hjp v H Hm.
  - rewrite conforms_FUndef in H. destruct (e_undef E i) as [[|q k]|] eqn:He; try contradiction.
    destruct n as [|m]; [contradiction|].
    destruct (IHn m ltac:(lia) (Fld q k) (Hu _ _ He) (Htu _ _ He) (Hpou _ _ He) (Hjpu _ _ He) v H) as [w [w' [[H1 [H2 _]] [H3 [H4 _]]]]].
    { intros k' x Hx. apply Hm. econstructor; eauto. }
    exists w, w'. split; [|split; [exact H3|split; [intros anc; rewrite process_FUndef, He; cbn [Nat.add]; auto|intros p' k' Hx; discriminate]]].
    split; [|split]; [intros anc; rewrite process_FUndef, He; cbn [Nat.add]; auto..|]. intros p' k' Hx. discriminate.
  - assert (Hsub : forall g, In g (subfields k) -> forall y, conforms E n g y -> (forall k x, meets E g y k x -> carries_beyond E desc recon more k x) ->
              exists w w', ships E desc recon (n + more) g y w w').
    { intros g Hg y. apply (IH g Hg); eapply everywhere_sub; eauto. }
    assert (Htidy := everywhere_top _ _ _ Ht). assert (Hwk := everywhere_top _ _ _ Hf). assert (Hport := everywhere_top _ _ _ Hpo).
    assert (Hjport := everywhere_top _ _ _ Hjp).
    destruct (Hm k v (meets_here E p k v)) as [[Hhere Hjhere] Hhere2].
    destruct Htidy as [Hp [_ [Hnc Hkind]]]. rewrite conforms_Fld in H.
    assert (Hchild : forall d : list (str * field), (forall kf, In kf d -> In (snd kf) (subfields k)) ->
      forall kf, In kf d -> (forall q, fparams E (snd kf) = Some q -> p_ignore_null q = false)
                         /\ (fparams E (snd kf) = None -> forall v, ~ conforms E n (snd kf) v)).
    { intros d Hd kf Hkf. apply Hd in Hkf. assert (Hev := everywhere_sub _ _ _ _ Ht Hkf). split.
      - intros q Hq. destruct (snd kf) as [i|q' k'] eqn:Hs.
        + cbn in Hq. destruct (e_undef E i) as [[|q' k']|] eqn:He; try discriminate. injection Hq as <-.
          assert (Ht' := everywhere_top _ _ _ (Htu _ _ He)). apply Ht'.
        + injection Hq as <-. assert (Ht' := everywhere_top _ _ _ Hev). apply Ht'.
      - intros Hq w Hw. destruct (snd kf) as [i|q' k'] eqn:Hs; [|discriminate].
        rewrite conforms_FUndef in Hw. cbn in Hq. destruct (e_undef E i) as [[|q' k']|]; try contradiction. discriminate. }
    destruct (is_none v) eqn:Hnone.
    { (* null *)
      destruct v; try discriminate Hnone. exists VNone, VNone.
      assert (Hnn : p_nonnull p = false).
      { destruct H as [[_ Hnn]|[Hn H]]; [exact Hnn|]. exfalso. destruct k; cbn [kmap] in Hn; try (apply Hn; reflexivity).
        destruct (Hn eq_refl) as [c [Hc Hnl]]. apply in_map_iff in Hc. destruct Hc as [g [<- Hg]].
        destruct Hkind as [Hkind _]. rewrite Forall_forall in Hkind. exact (Hkind g Hg Hnl). }
      assert (Hnull : forall ph ser anc, process_gen E desc recon (n + more) (Fld p k) false ph ser anc VNone = Ok VNone).
      { intros ph ser anc. rewrite process_Fld. unfold process_body.
        destruct k; cbn [kmap]; try (rewrite scalar_null, Hnn; reflexivity).
        all: cbv [process_map process_sequence process_structure process_tuple process_union]; rewrite is_null_none, Hnn; reflexivity. }
      split; [|split; [constructor|split; [intros; apply Hnull|reflexivity]]].
      split; [|split]; [intros; apply Hnull..|]. intros p' k' [= <- <-]. split; [reflexivity|]. intros _. left. auto. }
    destruct H as [[-> _]|[Hv H]]; [discriminate|].
    assert (Hscal : simple k = true -> scalar_clause E p k v -> exists w w', ships E desc recon (n + more) (Fld p k) v w w').
    { intros Hk Hs.
      assert (Hrun : forall anc unser ser_v, process_scalar E p k unser ser_v Inbound false anc v = Ok v).
      { intros anc unser ser_v. apply scalar_complete; auto.
        - destruct k; try reflexivity; discriminate.
        - destruct k; try exact I; [exact Hkind|].
          split; [intros x Hx; apply Hkind; left; exact Hx|].
          intros l' -> x Hx. apply Hkind. right. exact Hx. }
      set (kc := kmap (fun g => (g, process_gen E desc recon (n + more) g false)) k : kindP val child).
      destruct (scalar_rt E desc recon p k v Hk Hp Hnc Hrun Hs Hhere) as [w [H1 [H2 H3]]]. exists w, w.
      assert (Htr : trips E desc recon (n + more) (Fld p k) v w); [|split; [exact Htr|split; [|split]]].
      2:{ destruct Hs as [[-> _]|[Hvn [Hsc _]]]; [discriminate|].
          apply (scalar_json E desc recon p k v w Hk Hjport Hvn Hsc Hhere Hjhere).
          exact (scalar_outbound_inv E p k _ _ [] v w (Hrun [] _ _) Hvn (H1 [])). }
      2:{ apply Htr. }
      2:{ intros p' k' [= <- <-] Hun. apply H3, Hun. }
      split; [|split]; [| |intros p' k' [= <- <-]; exact H3].
      - intros anc. rewrite process_Fld. unfold process_body. destruct k; try discriminate Hk; exact (H1 _).
      - intros anc. rewrite process_Fld. unfold process_body. destruct k; try discriminate Hk; exact (H2 _). }
    destruct k; cbn [kmap] in H |- *.
    all: try (destruct Hport; fail).
    all: try (apply (Hhere2 _ eq_refl); [exact Hp|exact Hport|intros ->; discriminate|lia]).
    all: try (apply Hscal; [reflexivity|right; split; [intros ->; discriminate|exact H]]).
    + (* map *)
      destruct H as [l [-> [Hd [Hl Hreq]]]].
      assert (Hval : In value (subfields (KMap value key required_keys : kind))) by (destruct key; left; reflexivity).
      rewrite Forall_forall in Hl.
      (* the serialized entries, and what JSON makes of them *)
      assert (Hex : exists ll, Forall2 (fun (a : val * val) (bc : (val * val) * (val * val)) =>
                match key with Some g => trips E desc recon (n + more) g (fst a) (fst (fst bc)) | None => fst a = fst (fst bc) end
                /\ (exists t, key_text E (fst (fst bc)) t /\ carried t /\ fst (snd bc) = VStr t
                     /\ veq (e_local E) (fst a) (fst a) = true
                     /\ match key with Some g => forall anc, process_gen E desc recon (n + more) g false Inbound true anc (VStr t) = Ok (fst a)
                                      | None => fst a = VStr t end)
                /\ ships E desc recon (n + more) value (snd a) (snd (fst bc)) (snd (snd bc))) l ll).
      { apply Forall_exists. intros [a b] Hab. destruct (Hl _ Hab) as [Hka [_ [_ Hvb]]]. cbn [fst snd] in Hka, Hvb.
        destruct (Hsub value Hval b Hvb) as [b' [b'' Hb']].
        { intros k x Hx. apply Hm. eapply meets_value; eauto. }
        destruct key as [g|]; cbn [option_map snd] in Hka.
        - assert (Hgs : In g (subfields (KMap value (Some g) required_keys : kind))) by (right; left; reflexivity).
          destruct (Hsub g Hgs a Hka) as [a' [a'' Ha']].
          { intros k x Hx. apply Hm. eapply meets_key; eauto. }
          destruct Hjport as [q [kd [-> [Hqn Hjk]]]].
          assert (Hgt := everywhere_top _ _ _ (everywhere_sub _ _ _ _ Ht Hgs)). destruct Hgt as [Hqp [_ [Hqc Hqk]]].
          assert (Hcl : a <> VNone /\ scalar_clause E q kd a).
          { rewrite conforms_Fld in Hka. destruct kd; cbn in Hjk; try contradiction; cbn [kmap] in Hka;
              (destruct Hka as [[_ Hka]|[Hka1 Hka2]]; [congruence|]); (split; [exact Hka1|]); right; auto. }
          destruct Hcl as [Han Hcl].
          destruct (Hm kd a ltac:(eapply meets_key; [exact Hab|constructor])) as [[Hfa _] _].
          destruct (key_ships E desc recon (n + more) q kd a a' a'') as [t [K1 [K2 [K3 K4]]]]; try assumption.
          + intros anc unser ser_v. apply scalar_complete; auto.
            * destruct kd; try reflexivity; destruct Hjk.
            * destruct kd; try exact I; try (destruct Hjk; fail); [exact Hqk|].
              split; [intros x Hx; apply Hqk; left; exact Hx|].
              intros lx -> x Hx. apply Hqk. right. exact Hx.
          + destruct Hcl as [[-> _]|[_ [Hcl _]]]; [congruence|exact Hcl].
          + intros d ->. destruct Hhere as [Hx|Hx]; [discriminate|]. eapply Hx; eauto.
          + exists ((a', b'), (VStr t, b'')). cbn [fst snd]. split; [exact (proj1 Ha')|]. split; [|exact Hb'].
            exists t. auto.
        - destruct Hka as [s ->]. exists ((VStr s, b'), (VStr s, b'')). cbn [fst snd]. split; [reflexivity|]. split; [|exact Hb'].
          exists s. split; [constructor|]. split; [|split; [reflexivity|split; [apply veq_text|reflexivity]]].
          destruct Hjhere as [Hx|Hx]; [discriminate|]. eapply Hx; [reflexivity|exact Hab]. }
      destruct Hex as [ll Hll].
      set (l' := map fst ll). set (l'' := map snd ll).
      assert (Hl' : Forall2 (fun a b =>
                match key with Some g => trips E desc recon (n + more) g (fst a) (fst b) | None => fst a = fst b end
                /\ trips E desc recon (n + more) value (snd a) (snd b)) l l').
      { unfold l'. clear - Hll. induction Hll as [|a b l ll [H1 [_ H2]] _ IH]; constructor; [|exact IH]. split; [exact H1|exact (proj1 H2)]. }
      assert (Hl'' : Forall2 (fun a c => (exists t, fst c = VStr t /\ veq (e_local E) (fst a) (fst a) = true
                     /\ match key with Some g => forall anc, process_gen E desc recon (n + more) g false Inbound true anc (VStr t) = Ok (fst a)
                                      | None => fst a = VStr t end)
                     /\ forall anc, process_gen E desc recon (n + more) value false Inbound true anc (snd c) = Ok (snd a)) l l'').
      { unfold l''. clear - Hll. induction Hll as [|a b l ll [_ [[t H1] H2]] _ IH]; constructor; [|exact IH]. split; [|exact (proj1 (proj2 (proj2 H2)))].
        exists t. tauto. }
      assert (Hjson : Forall2 (fun kv kw => (exists t, key_text E (fst kv) t /\ carried t /\ fst kw = VStr t)
                          /\ json E (snd kv) (snd kw)) l' l'').
      { unfold l', l''. clear - Hll. induction Hll as [|a b l ll [_ [[t H1] H2]] _ IH]; constructor; [|exact IH]. split; [|exact (proj1 (proj2 H2))].
        exists t. tauto. }
      assert (Hnd'' : NoDup (map fst l'')).
      { clear - Hl'' Hd. apply NoDup_nth_error. intros i j Hi Hij.
        assert (Hgen : forall i j t, (i < j)%nat -> nth_error (map fst l'') i = Some t -> nth_error (map fst l'') j = Some t -> False).
        { clear - Hl'' Hd. intros i j t Hlt Hx Hy. rewrite nth_error_map in Hx, Hy.
          destruct (nth_error l'' i) as [c1|] eqn:E1; [|discriminate]. destruct (nth_error l'' j) as [c2|] eqn:E2; [|discriminate].
          cbn in Hx, Hy. destruct (Forall2_nth _ _ _ _ _ Hl'' E1) as [a1 [A1 [[t1 [T1 [V1 P1]]] _]]].
          destruct (Forall2_nth _ _ _ _ _ Hl'' E2) as [a2 [A2 [[t2 [T2 [V2 P2]]] _]]].
          injection Hx as Hx. injection Hy as Hy. rewrite <- Hy in Hx. rewrite T1, T2 in Hx. injection Hx as ->.
          assert (Ha : fst a1 = fst a2).
          { destruct key as [g|]; [|congruence]. specialize (P1 []). specialize (P2 []). rewrite P1 in P2. injection P2 as P2. exact P2. }
          rewrite distinct_nth in Hd. assert (Hv := Hd i j (fst a1) (fst a2) Hlt).
          rewrite !nth_error_map, A1, A2 in Hv. specialize (Hv eq_refl eq_refl). rewrite <- Ha, V1 in Hv. discriminate. }
        destruct (Nat.lt_trichotomy i j) as [Hlt|[->|Hlt]]; [exfalso|reflexivity|exfalso].
        - destruct (nth_error (map fst l'') i) as [t|] eqn:Ei; [|apply nth_error_None in Ei; lia]. symmetry in Hij. eapply Hgen; eauto.
        - destruct (nth_error (map fst l'') i) as [t|] eqn:Ei; [|apply nth_error_None in Ei; lia]. symmetry in Hij. eapply Hgen; eauto. }
      assert (Hkeys : Forall2 (fun a b => match key with Some g => trips E desc recon (n + more) g a b | None => a = b end) (map fst l) (map fst l')).
      { clear - Hl'. induction Hl' as [|a b l l' [H _] _ IH]; constructor; auto. }
      (* the keys *)
      assert (Hnew : distinct (e_local E) (map fst l')
                /\ (forall b, In b l' -> hashable (fst b) = true /\ percent_s E (fst b) <> None)
                /\ (required_keys = None \/ map fst l' = map fst l)).
      { assert (Hsame : map fst l' = map fst l -> distinct (e_local E) (map fst l')
                /\ (forall b, In b l' -> hashable (fst b) = true /\ percent_s E (fst b) <> None)
                /\ (required_keys = None \/ map fst l' = map fst l)).
        { intros Heq. split; [rewrite Heq; exact Hd|]. split; [|right; exact Heq].
          intros b Hb. apply (in_map fst) in Hb. rewrite Heq in Hb. apply in_map_iff in Hb. destruct Hb as [a [<- Ha]].
          destruct (Hl _ Ha) as [_ [H1 [H2 _]]]. auto. }
        destruct key as [g|].
        - destruct Hport as [q [kd [-> [Hun|[Hwr Hr]]]]].
          + apply Hsame. eapply trips_unchanged; eauto.
          + assert (Hrec : recovered (e_local E) (map fst l) (map fst l')).
            { apply (trips_recovered E desc recon n (n + more) q kd); [exact Hwr|exact Hkeys|].
              intros v' Hv'. apply in_map_iff in Hv'. destruct Hv' as [[a b] [<- Hab]]. cbn [fst].
              split; [exact (proj1 (Hl _ Hab))|]. split.
              - refine (proj1 (proj1 (Hm _ _ _))). eapply meets_key; [exact Hab|constructor].
              - intros d ->. destruct Hhere as [Hx|Hx]; [discriminate|]. eapply Hx; eauto. }
            split; [eapply recovered_distinct; eauto|]. split; [|left; exact Hr].
            intros b Hb. destruct Hrec as [Hrec _]. apply (in_map fst) in Hb. apply In_nth_error in Hb. destruct Hb as [j Hj].
            destruct (Forall2_nth _ _ _ _ _ Hrec Hj) as [a [_ [Htx _]]].
            split; [apply textual_hashable, Htx|apply textual_percent, Htx].
        - apply Hsame. symmetry. clear - Hkeys. induction Hkeys; congruence. }
      destruct Hnew as [Hd' [Hb' Hor]].
      assert (Hreq' : forall (m : list (val * val)), map fst m = map fst l -> forall r, required_keys = Some r ->
                Forall (fun x => hashable x = true) r /\ forall x, In x r -> exists kv, In kv m /\ veq (e_local E) (fst kv) x = true).
      { intros m Hmm r ->. split; [exact Hkind|]. intros x Hx. destruct (Hreq r x eq_refl Hx) as [kv [Hkv Hq]].
        apply (in_map fst) in Hkv. rewrite <- Hmm in Hkv. apply in_map_iff in Hkv. destruct Hkv as [kv' [He Hkv']].
        exists kv'. rewrite He. auto. }
      exists (VDict false l'), (VDict false l''). split; [|split; [|split; [|intros p' k' [= <- <-]; discriminate]]].
      2:{ eapply json_dict; [reflexivity|exact Hjson|exact Hnd'']. }
      2:{ intros anc. rewrite process_Fld. unfold process_body. cbn [kmap]. apply map_moves; [exact Hp|exact Hd| |].
          - apply Forall2_flip' in Hl''. eapply Forall2_In; [exact Hl''|]. cbv beta. intros b a _ Ha [[t [Ht1 [_ Ht2]]] H2].
            destruct (Hl _ Ha) as [Hka [Hh [Hpa _]]]. rewrite Ht1.
            split; [|split; [discriminate|split; [exact Hpa|split; [exact Hh|exact H2]]]].
            destruct key as [g|]; cbn [option_map key_moves]; [exact Ht2|]. rewrite Ht2. split; [reflexivity|eauto].
          - apply Hreq'. reflexivity. }
      split; [|split]; [| |intros p' k' [= <- <-]; split; discriminate].
      * intros anc. rewrite process_Fld. unfold process_body. cbn [kmap]. apply map_moves; [exact Hp|exact Hd'| |].
        -- eapply Forall2_In; [exact Hl'|]. cbv beta. intros a b Ha Hb [H1 H2]. destruct (Hl _ Ha) as [Hka [_ [Hpa _]]].
           destruct (Hb' b Hb) as [Hh Hpb]. split; [|split; [exact Hpa|split; [exact Hpb|split; [exact Hh|exact (proj1 H2)]]]].
           destruct key as [g|]; cbn [option_map key_moves]; [exact (proj1 H1)|]. split; [exact H1|exact Hka].
        -- destruct Hor as [->|Heq]; [discriminate|]. apply Hreq', Heq.
      * intros anc. rewrite process_Fld. unfold process_body. cbn [kmap]. apply map_moves; [exact Hp|exact Hd| |].
        -- apply Forall2_flip' in Hl'. eapply Forall2_In; [exact Hl'|]. cbv beta. intros b a Hb Ha [H1 H2].
           destruct (Hl _ Ha) as [Hka [Hh [Hpa _]]].
           destruct (Hb' b Hb) as [_ Hpb]. split; [|split; [exact Hpb|split; [exact Hpa|split; [exact Hh|exact (proj1 (proj2 H2))]]]].
           destruct key as [g|]; cbn [option_map key_moves]; [exact (proj1 (proj2 H1))|]. rewrite <- H1. split; [reflexivity|exact Hka].
        -- apply Hreq'. reflexivity.
    + (* sequence *)
      destruct H as [l [-> [H1 [H2 [Hl Hu']]]]]. cbn [snd] in Hl. rewrite Forall_forall in Hl.
      assert (Hex : exists ll, Forall2 (fun a bc => ships E desc recon (n + more) item a (fst bc) (snd bc)) l ll).
      { apply Forall_exists. intros x Hx. destruct (Hsub item (or_introl eq_refl) x (Hl x Hx)) as [y [y' Hy]].
        - intros k' y Hy. apply Hm. eapply meets_item; eauto.
        - exists (y, y'). exact Hy. }
      destruct Hex as [ll Hll]. set (l' := map fst ll). set (l'' := map snd ll).
      assert (Hl' : Forall2 (trips E desc recon (n + more) item) l l').
      { unfold l'. clear - Hll. induction Hll as [|a b l ll H1 _ IH]; constructor; [exact (proj1 H1)|exact IH]. }
      assert (Hl'' : Forall2 (fun a c => forall anc, process_gen E desc recon (n + more) item false Inbound true anc c = Ok a) l l'').
      { unfold l''. clear - Hll. induction Hll as [|a b l ll H1 _ IH]; constructor; [exact (proj1 (proj2 (proj2 H1)))|exact IH]. }
      assert (Hjson : Forall2 (json E) l' l'').
      { unfold l', l''. clear - Hll. induction Hll as [|a b l ll H1 _ IH]; constructor; [exact (proj1 (proj2 H1))|exact IH]. }
      clearbody l' l''. assert (Hlen'' : length l = length l'') by (eapply Forall2_length, Hl'').
      assert (Hlen : length l = length l') by (eapply Forall2_length, Hl').
      assert (Huniq : unique = true -> Forall (fun x => hashable x = true) l'
                /\ forall i j x y, (i < j)%nat -> nth_error l' i = Some x -> nth_error l' j = Some y -> veq (e_local E) y x = false).
      { intros ->. destruct (Hu' eq_refl) as [Hh Hdd]. destruct Hport as [q [kd [-> Hk]]].
        destruct (unchanged kd) eqn:Hun.
        - assert (l' = l) by (eapply trips_unchanged; eauto). subst l'. auto.
        - cbn [orb] in Hk.
          assert (Hrec : recovered (e_local E) l l').
          { apply (trips_recovered E desc recon n (n + more) q kd); [exact Hk|exact Hl'|].
            intros v' Hv'. split; [apply Hl, Hv'|]. split.
            - refine (proj1 (proj1 (Hm _ _ _))). eapply meets_item; [exact Hv'|constructor].
            - intros d ->. destruct Hhere as [Hx|Hx]; [discriminate|]. eapply Hx; eauto. }
          split; [|eapply recovered_nodup; eauto].
          rewrite Forall_forall. intros w Hw. apply In_nth_error in Hw. destruct Hw as [j Hj].
          destruct (Forall2_nth _ _ _ _ _ (proj1 Hrec) Hj) as [a [_ [Htx _]]]. apply textual_hashable, Htx. }
      exists (VList l'), (VList l''). split; [|split; [constructor; exact Hjson|split; [|intros p' k' [= <- <-]; discriminate]]].
      2:{ intros anc. rewrite process_Fld. unfold process_body. cbn [kmap]. apply seq_moves; auto; try (rewrite <- Hlen''; assumption).
          apply Forall2_flip' in Hl''. eapply Forall2_impl; [|exact Hl'']. intros a b Hab. exact Hab. }
      split; [|split]; [| |intros p' k' [= <- <-]; split; discriminate].
      * intros anc. rewrite process_Fld. unfold process_body. cbn [kmap]. apply seq_moves; auto.
        eapply Forall2_impl; [|exact Hl']. intros a b Hab. exact (proj1 Hab).
      * intros anc. rewrite process_Fld. unfold process_body. cbn [kmap]. apply seq_moves; auto; try (rewrite <- Hlen; assumption).
        apply Forall2_flip' in Hl'. eapply Forall2_impl; [|exact Hl']. intros a b Hab. exact (proj1 (proj2 Hab)).
    + (* structure *)
      rename d into sd.
      assert (Hentries : forall d ko l, (forall kf, In kf d -> In (snd kf) (subfields (KStructure sd strict key_order : kind))) ->
                NoDup (map fst d) -> match ko with Some o => NoDup o | None => True end -> struct_conf E (map (fun kf => (fst kf, (snd kf, conforms E n (snd kf)))) d) ko l ->
                (forall name f y, In (name, f) d -> In (VStr name, y) l -> forall k x, meets E f y k x -> carries_beyond E desc recon more k x) ->
                (forall name f, In (name, f) d -> carried name) ->
                exists l' l'', Forall2 (fun a b => fst a = fst b
                    /\ forall name f, fst a = VStr name -> In (name, f) d -> trips E desc recon (n + more) f (snd a) (snd b)) l l'
                  /\ Forall2 (fun a b => fst a = fst b
                    /\ forall name f, fst a = VStr name -> In (name, f) d ->
                         (forall anc, process_gen E desc recon (n + more) f false Inbound true anc (snd b) = Ok (snd a))
                         /\ forall q kd, f = Fld q kd -> unchanged kd = true -> snd b = snd a) l l''
                  /\ forall ordered, json E (VDict ordered l') (VDict false l'')).
      { intros d ko l Hd Hnd Hndk [Hsl [Hent _]] Hme Hcar.
        assert (Hex : exists ll, Forall2 (fun (a : val * val) (bc : (val * val) * (val * val)) =>
                  exists name, carried name /\ fst a = VStr name /\ fst (fst bc) = VStr name /\ fst (snd bc) = VStr name
                  /\ forall f, In (name, f) d -> ships E desc recon (n + more) f (snd a) (snd (fst bc)) (snd (snd bc))) l ll
                /\ Forall (fun bc => json E (snd (fst bc)) (snd (snd bc))) ll).
        { cut (exists ll, Forall2 (fun (a : val * val) (bc : (val * val) * (val * val)) =>
                  (exists name, carried name /\ fst a = VStr name /\ fst (fst bc) = VStr name /\ fst (snd bc) = VStr name
                  /\ forall f, In (name, f) d -> ships E desc recon (n + more) f (snd a) (snd (fst bc)) (snd (snd bc)))
                  /\ json E (snd (fst bc)) (snd (snd bc))) l ll).
          { intros [ll Hll]. exists ll. clear - Hll. split; induction Hll as [|a b l ll [H1 H2] _ IH]; constructor; assumption. }
          apply Forall_exists. intros [a y] Ha.
          assert (Hstr : exists name, a = VStr name).
          { apply (in_map fst) in Ha. eapply sublist_In in Ha; [|exact Hsl]. apply in_map_iff in Ha. destruct Ha as [name [Hx _]]. cbn in Hx. eauto. }
          destruct Hstr as [name ->]. destruct (Hent name y Ha) as [c [Hc Hy]].
          apply in_map_iff in Hc. destruct Hc as [[name' f] [[= <- <-] Hin]]. cbn [fst snd] in Hy.
          destruct (Hsub f (Hd _ Hin) y Hy (Hme _ _ _ Hin Ha)) as [w [w' Hw]]. exists ((VStr name', w), (VStr name', w')). cbn [fst snd].
          split; [|exact (proj1 (proj2 Hw))]. exists name'. split; [exact (Hcar _ _ Hin)|]. repeat (split; [reflexivity|]).
          intros f2 Hin2.
          assert (f2 = f) by (apply aget_NoDup_In in Hin; [|exact Hnd]; apply aget_NoDup_In in Hin2; [|exact Hnd]; congruence).
          subst f2. exact Hw. }
        destruct Hex as [ll [Hll Hjs]]. exists (map fst ll), (map snd ll). split; [|split].
        - clear - Hll. induction Hll as [|a b l ll [nm [_ [H1 [H2 [_ H3]]]]] _ IH]; constructor; [|exact IH]. split; [congruence|].
          intros name f Hn Hin. rewrite H1 in Hn. injection Hn as ->. exact (proj1 (H3 f Hin)).
        - clear - Hll. induction Hll as [|a b l ll [nm [_ [H1 [_ [H2 H3]]]]] _ IH]; constructor; [|exact IH]. split; [congruence|].
          intros name f Hn Hin. rewrite H1 in Hn. injection Hn as ->. exact (proj2 (proj2 (H3 f Hin))).
        - intros ordered. eapply json_dict; [reflexivity| |].
          + clear - Hll Hjs. induction Hll as [|a b l ll [nm [Hc [H1 [H2 [H3 _]]]]] _ IH]; constructor; inversion Hjs; subst; [|apply IH; assumption].
            split; [|assumption]. exists nm. rewrite H2. split; [constructor|]. auto.
          + assert (Heq : map fst (map snd ll) = map fst l).
            { clear - Hll. induction Hll as [|a b l ll [nm [Hc [H1 [H2 [H3 _]]]]] _ IH]; [reflexivity|]. cbn [map]. f_equal; [congruence|exact IH]. }
            rewrite Heq. eapply sublist_NoDup; [exact Hsl|]. apply Injective_map_NoDup; [intros a b [= Hab]; exact Hab|].
            rewrite map_map. destruct ko as [[|o os]|]; [exact Hnd|exact Hndk|exact Hnd]. }
      cbn [well_keyed] in Hwk. destruct sd as [d|on vs]; cbn [sdef_map] in H |- *.
      * destruct H as [l [-> Hc]]. destruct Hwk as [Hnd Hko].
        assert (Hd : forall kf, In kf d -> In (snd kf) (subfields (KStructure (SPlain d) strict key_order : kind))).
        { intros kf Hkf. cbn [subfields sdef_fields]. apply in_map, Hkf. }
        assert (Hndk : match key_order with Some o => NoDup o | None => True end) by (destruct key_order; [apply Hko|exact I]).
        destruct (Hentries d key_order l Hd Hnd Hndk Hc) as [l' [l'' [Hl' [Hl'' Hjson]]]].
        { intros name f y Hin Hy k x Hx. apply Hm. eapply meets_entry; eauto. }
        { intros name f Hin. apply Hjport. cbn [entry_names]. apply (in_map fst) in Hin. exact Hin. }
        assert (Hin := fun path => struct_in E desc recon n (n + more) d key_order strict l path VNone Hnd Hko (fun _ => eq_refl) (Hchild d Hd) Hc l''
                  ltac:(eapply Forall2_impl; [|exact Hl'']; intros a b [Ha Hb]; split; [exact Ha|]; intros name f Hx Hy; exact (proj1 (Hb name f Hx Hy)))).
        assert (Hrun := fun path => struct_trips E desc recon n (n + more) d key_order strict l path VNone Hnd Hko (fun _ => eq_refl) (Hchild d Hd) Hc l' Hl').
        exists (VDict (has_order key_order) l'), (VDict false l''). split; [|split; [apply Hjson|split; [|intros p' k' [= <- <-]; discriminate]]].
        2:{ intros anc. rewrite process_Fld. unfold process_body, process_structure. cbn [kmap sdef_map].
            rewrite is_null_some by discriminate. cbn [bind as_dict]. unfold pre_raw. rewrite Hp. cbn [bind as_dict]. apply Hin. }
        split; [|split]; [| |intros p' k' [= <- <-]; split; discriminate].
        -- intros anc. rewrite process_Fld. unfold process_body, process_structure. cbn [kmap sdef_map].
           rewrite is_null_some by discriminate. cbn [bind as_dict]. unfold pre_raw. rewrite Hp. cbn [bind as_dict]. apply Hrun.
        -- intros anc. rewrite process_Fld. unfold process_body, process_structure. cbn [kmap sdef_map].
           rewrite is_null_some by discriminate. cbn [bind as_dict]. unfold pre_raw. rewrite Hp. cbn [bind as_dict]. apply Hrun.
      * destruct H as [l [name [q [y [vk [d [-> [Hq [Hname [Hin [Hyn [Hy [Hh [Hfind Hc]]]]]]]]]]]]]].
        destruct Hwk as [-> [q' [kd [name' [-> [Hname' [Hb [Hkig Hvs]]]]]]]].
        cbn in Hq. subst q'. rewrite Hname in Hname'. injection Hname' as <-.
        destruct Hport as [q2 [kd2 [[= <- <-] Hun]]].
        rewrite (find_map_snd (fun a => veq (e_local E) a y)) in Hfind.
        destruct (find (fun vd => veq (e_local E) (fst vd) y) vs) as [[vk' d']|] eqn:Hf'; [|discriminate].
        cbn [option_map fst snd] in Hfind. injection Hfind as <- <-.
        apply find_some in Hf' as Hfs. destruct Hfs as [Hin_vs Hveq]. cbn [fst] in Hveq.
        rewrite Forall_forall in Hvs. destruct (Hvs _ Hin_vs) as [Hnd Hdisc]. cbn [fst snd] in Hnd, Hdisc.
        assert (Hd : forall kf, In kf d' -> In (snd kf) (subfields (KStructure (SPoly (Fld q kd) vs) strict None : kind))).
        { intros kf Hkf. cbn [subfields sdef_fields]. right. apply in_flat_map. exists (vk', d').
          split; [exact Hin_vs|]. apply in_map, Hkf. }
        assert (Hme : forall name' f y', In (name', f) d' -> In (VStr name', y') l -> forall k x, meets E f y' k x -> carries_beyond E desc recon more k x).
        { intros name' f y' Hinf Hy' k x Hx. apply Hm. eapply meets_variant; eauto. }
        destruct (Hentries d' None l Hd Hnd I Hc Hme) as [l' [l'' [Hl' [Hl'' Hjson]]]].
        { intros name' f Hinf. apply Hjport. cbn [entry_names]. apply in_flat_map. exists (vk', d'). split; [exact Hin_vs|].
          apply (in_map fst) in Hinf. exact Hinf. }
        assert (Hrin := fun path => struct_in E desc recon n (n + more) d' None strict l path y Hnd I (fun X => match X eq_refl with end) (Hchild d' Hd) Hc l''
                  ltac:(eapply Forall2_impl; [|exact Hl'']; intros a0 b0 [Ha0 Hb0]; split; [exact Ha0|]; intros name0 f0 Hx0 Hy0; exact (proj1 (Hb0 name0 f0 Hx0 Hy0)))).
        assert (Hrun := fun path => struct_trips E desc recon n (n + more) d' None strict l path y Hnd I (fun X => match X eq_refl with end) (Hchild d' Hd) Hc l' Hl').
        assert (Hget : sget name l = Some y).
        { apply sget_NoDup; [|exact Hin]. destruct Hc as [Hsl _]. eapply sublist_NoDup; [exact Hsl|].
          apply Injective_map_NoDup; [intros a b [= Hab]; exact Hab|]. cbn beta iota. rewrite map_map. exact Hnd. }
        assert (Hget' : sget name l' = Some y).
        { assert (Hx := sget_Forall2 (fun key x y => forall name f, key = VStr name -> In (name, f) d' -> trips E desc recon (n + more) f x y) name _ _ Hl').
          rewrite Hget in Hx. destruct (sget name l') as [y'|]; [|contradiction]. f_equal.
          destruct (Hx name _ eq_refl Hdisc) as [_ [_ Hform]]. apply (Hform _ _ eq_refl), Hun. }
        assert (Hget'' : sget name l'' = Some y).
        { assert (Hx := sget_Forall2 (fun key x y => forall name f, key = VStr name -> In (name, f) d' ->
                (forall anc, process_gen E desc recon (n + more) f false Inbound true anc y = Ok x) /\ forall q kd, f = Fld q kd -> unchanged kd = true -> y = x) name _ _ Hl'').
          rewrite Hget in Hx. destruct (sget name l'') as [y'|]; [|contradiction]. f_equal.
          exact (proj2 (Hx name _ eq_refl Hdisc) _ _ eq_refl Hun). }
        destruct (Hsub (Fld q kd) (or_introl eq_refl) y Hy) as [y' [y'' [[Ho [Hi Hform]] _]]].
        { intros k x Hx. apply meets_basic in Hx; [|rewrite Hun; reflexivity]. destruct Hx as [-> ->].
          eapply Hme; [exact Hdisc|exact Hin|constructor]. }
        assert (y' = y) by (apply (Hform _ _ eq_refl), Hun). subst y'.
        assert (Hstep : forall ph m m' path,
            (forall a, process_gen E desc recon (n + more) (Fld q kd) false ph true a y = Ok y) -> sget name m = Some y ->
            struct_run E (map (fun kf => (fst kf, (snd kf, process_gen E desc recon (n + more) (snd kf) false))) d')
              strict None y false ph true path m = Ok (VDict false m') ->
            process_structure E p (SPoly (Fld q kd, process_gen E desc recon (n + more) (Fld q kd) false)
              (map (fun vl => (fst vl, map (fun kf => (fst kf, (snd kf, process_gen E desc recon (n + more) (snd kf) false))) (snd vl))) vs))
              strict None false ph true path (VDict false m) = Ok (VDict false m')).
        { intros ph m m' path Hon Hgm Hr. unfold process_structure.
          rewrite is_null_some by discriminate. cbn [bind as_dict]. unfold pre_raw. rewrite Hp. cbn [bind as_dict fst fparams].
          rewrite Hname, Hgm.
          assert (Hgoal : (do ident' <- process_gen E desc recon (n + more) (Fld q kd) false ph true (path ++ [$"." ++ name]) y;
                   if hashable ident' then
                     match find (fun vd => veq (e_local E) (fst vd) ident')
                             (map (fun vl => (fst vl, map (fun kf => (fst kf, (snd kf, process_gen E desc recon (n + more) (snd kf) false))) (snd vl))) vs) with
                     | Some (_, (kf :: rest)) => struct_run E (kf :: rest) strict None ident' false ph true path m
                     | _ => verr path $"unrecognized"
                     end
                   else py TypeError) = Ok (VDict false m')).
          { rewrite Hon. cbn [bind]. rewrite Hh.
            rewrite (find_map_snd (fun a => veq (e_local E) a y)), Hf'. cbn [option_map fst snd].
            destruct d' as [|kf d']; [destruct Hdisc|]. exact Hr. }
          cbn [snd]. destruct y; try congruence; exact Hgoal. }
        exists (VDict false l'), (VDict false l''). split; [|split; [apply Hjson|split; [|intros p' k' [= <- <-]; discriminate]]].
        2:{ intros anc. rewrite process_Fld. unfold process_body. cbn [kmap sdef_map]. apply Hstep; [exact Hi|exact Hget''|apply Hrin]. }
        split; [|split]; [| |intros p' k' [= <- <-]; split; discriminate].
        -- intros anc. rewrite process_Fld. unfold process_body. cbn [kmap sdef_map]. apply Hstep; [exact Ho|exact Hget|apply Hrun].
        -- intros anc. rewrite process_Fld. unfold process_body. cbn [kmap sdef_map]. apply Hstep; [exact Hi|exact Hget'|apply Hrun].
    + (* tuple *)
      destruct H as [l [-> Hl]].
      assert (Hl2 : Forall2 (fun g x => exists ww, ships E desc recon (n + more) g x (fst ww) (snd ww)) values l).
      { assert (Hl3 : Forall2 (conforms E n) values l).
        { clear - Hl. remember (map (fun g => (g, conforms E n g)) values) as cs eqn:Hcs. revert values Hcs.
          induction Hl as [|c x cs l Hx Hl IH]; intros [|g gs] Hcs; try discriminate Hcs; constructor; injection Hcs as -> Hcs.
          - exact Hx.
          - apply IH, Hcs. }
        assert (Hidx : forall i g x, nth_error values i = Some g -> nth_error l i = Some x -> conforms E n g x ->
                  exists ww, ships E desc recon (n + more) g x (fst ww) (snd ww)).
        { intros i g x Hg Hx Hcx. destruct (Hsub g ltac:(eapply nth_error_In, Hg) x Hcx) as [y [y' Hy]].
          - intros k y Hy. apply Hm. eapply meets_element; eauto.
          - exists (y, y'). exact Hy. }
        clear - Hl3 Hidx. induction Hl3 as [|g x gs l Hx Hl IH]; constructor.
        - apply (Hidx O); [reflexivity..|exact Hx].
        - apply IH. intros i g' x' H1 H2. apply (Hidx (S i)); assumption. }
      assert (Hex : exists l' l'', length l = length l' /\ length l = length l''
                /\ Forall2 (fun g xy => trips E desc recon (n + more) g (fst xy) (snd xy)) values (combine l l')
                /\ Forall2 (json E) l' l''
                /\ Forall2 (fun g xy => forall anc, process_gen E desc recon (n + more) g false Inbound true anc (fst xy) = Ok (snd xy)) values (combine l'' l)).
      { clear - Hl2. induction Hl2 as [|g x gs l [[w w'] Hw] Hl [l' [l'' [Hlen [Hlen' [IH [IH2 IH3]]]]]]]; [exists [], []; repeat split; constructor|].
        exists (w :: l'), (w' :: l''). cbn. destruct Hw as [Hw1 [Hw2 [Hw3 _]]]. split; [lia|]. split; [lia|]. repeat split; constructor; assumption. }
      destruct Hex as [l' [l'' [Hlen [Hlen'' [Hl' [Hjson Hl'']]]]]]. assert (Hlv : length values = length l) by (eapply Forall2_length, Hl2).
      exists (VTuple l'), (VList l''). split; [|split; [apply json_tuple; exact Hjson|split; [|intros p' k' [= <- <-]; discriminate]]].
      2:{ intros anc. rewrite process_Fld. unfold process_body. cbn [kmap].
          apply tuple_moves_list; [exact Hp|rewrite map_length; lia|lia|].
          clear - Hl''. remember (combine l'' l) as xs. clear Heqxs. induction Hl'' as [|g x gs xs Hx Hxs IH]; cbn [map]; constructor; [|exact IH]. exact Hx. }
      split; [|split]; [| |intros p' k' [= <- <-]; split; discriminate].
      * intros anc. rewrite process_Fld. unfold process_body. cbn [kmap].
        apply tuple_moves; [exact Hp|rewrite map_length; lia|exact Hlen|].
        clear - Hl'. remember (combine l l') as xs. clear Heqxs. induction Hl' as [|g x gs xs Hx Hxs IH]; cbn [map]; constructor; [|exact IH].
        exact (proj1 Hx).
      * intros anc. rewrite process_Fld. unfold process_body. cbn [kmap].
        apply tuple_moves; [exact Hp|rewrite map_length; lia|lia|].
        clear - Hl' Hlen. revert values l' Hl' Hlen. induction l as [|x l IH]; intros gs [|y l'] Hl' Hlen; try discriminate Hlen;
          inversion Hl'; subst; cbn [map combine]; constructor.
        -- match goal with H : trips _ _ _ _ _ _ _ |- _ => exact (proj1 (proj2 H)) end.
        -- apply IH; [assumption|]. cbn in Hlen. lia.
    + (* union *)
      destruct Hkind as [Hmn Hlp]. cbn [portable] in Hport. cbn [json_portable] in Hjport. cbn [subfields] in Hsub.
      assert (Hvn : v <> VNone) by (intros ->; discriminate).
      destruct H as [c [Hc Hx]]. apply in_map_iff in Hc. destruct Hc as [g [<- Hg]]. cbn [snd] in Hx.
      assert (Hpre : forall q k, In (Fld q k) fields -> p_preprocessor q = None).
      { intros q k Hin. assert (Hev := everywhere_sub _ _ _ _ Ht Hin). apply everywhere_top in Hev. apply Hev. }
      assert (Htr : forall g, In g fields -> conforms E n g v -> exists w w', ships E desc recon (n + more) g v w w').
      { intros g' Hg' Hc. apply Hsub; [exact Hg'|exact Hc|]. intros k x Hk. apply Hm. eapply meets_alternative; eauto. }
      destruct (union_first E desc recon n (n + more) fields v Hpre Hmn Hlp Hvn (ex_intro _ g (conj Hg Hx)))
        as [before [g' [after [Heq [Hcg Hb]]]]].
      assert (Hg' : In g' fields) by (rewrite Heq; apply in_elt).
      destruct (Htr g' Hg' Hcg) as [w [w' [Hw [Hj [Hin Hsame]]]]].
      rewrite Forall_forall in Hmn. assert (Hmg := Hmn g' Hg'). destruct g' as [i|q' k']; [exfalso; apply Hmg; exact I|].
      assert (Hwn : w <> VNone) by (eapply trips_nonnull; eauto).
      assert (Hwn' : w' <> VNone) by (destruct Hj; congruence).
      exists w, w'. split; [|split; [exact Hj|split; [|intros p' k'' [= <- <-]; discriminate]]].
      * split; [|split]; [| |intros p' k'' [= <- <-]; split; discriminate].
        -- intros anc. rewrite process_union_eq by exact Hvn. rewrite Heq. apply union_skips; [|apply Hw].
           apply Forall_forall. intros f Hfb. destruct (Hb f Hfb) as [q [k [-> [_ [_ [_ [Ho _]]]]]]]. exact Ho.
        -- intros anc. rewrite process_union_eq by exact Hwn. rewrite Heq in *. apply union_skips; [|apply Hw].
           apply Forall_forall. intros f Hfb. destruct (Hb f Hfb) as [q [k [-> [Hq [Hcn [Hmf [_ Hi]]]]]]].
           destruct (pairs_app _ _ _ _ Hport _ Hfb) as [[Hal Hun]|[He Hdis]].
           ++ destruct Hw as [_ [_ Hform]]. rewrite (proj1 (Hform _ _ eq_refl) Hun). exact (Hi Hal).
           ++ intros a. apply read_refused; auto. intros Hr. eapply Hdis; [exact Hr|].
              eapply wire_typed; [|exact Hmg|exact Hvn|exact (proj1 Hw [])]. eapply Hpre. exact Hg'.
      * intros anc. rewrite process_union_eq by exact Hwn'. rewrite Heq in *. apply union_skips; [|exact Hin].
        apply Forall_forall. intros f Hfb. destruct (Hb f Hfb) as [q [k [-> [Hq [Hcn [Hmf [_ Hi]]]]]]].
        destruct (pairs_app _ _ _ _ Hport _ Hfb) as [[Hal Hun]|[He Hdis]].
        -- rewrite (Hsame _ _ eq_refl Hun). exact (Hi Hal).
        -- intros a. apply read_refused; auto. intros Hr.
           assert (Hty : wire_type E k' w).
           { eapply wire_typed; [|exact Hmg|exact Hvn|exact (proj1 Hw [])]. eapply Hpre. exact Hg'. }
           assert (Hla := pairs_app _ _ _ _ Hjport _ Hfb).
           destruct (unchanged k') eqn:Hun.
           { assert (w' = w) by (rewrite (Hsame _ _ eq_refl Hun); symmetry; destruct Hw as [_ [_ Hfo]]; exact (proj1 (Hfo _ _ eq_refl) Hun)). subst w'.
             exact (Hdis w Hr Hty). }
           destruct k'; try discriminate Hun; cbn [list_apart wire_type] in *.
           all: try (match type of Hla with forall _, _ => idtac end; destruct Hty as [l ->]; inversion Hj; subst; [|discriminate];
                     exact (Hla _ Hr)).
           all: apply (Hdis w' Hr); try exact I;
             repeat match goal with H : exists _, _ |- _ => destruct H end; subst; inversion Hj; subst; eauto; discriminate.
Qed.


Lemma ships_all E desc recon n f v :
  throughout E well_keyed f -> throughout E (tidy E) f -> throughout E (portable E) f -> throughout E (json_portable E) f ->
  conforms E n f v -> (forall k x, meets E f v k x -> faithful E desc recon k x /\ json_faithful E desc k x) ->
  exists w w', ships E desc recon n f v w w'.
Proof.
  intros H1 H2 H3 H4 H5 H6. rewrite <- (Nat.add_0_r n). apply ships_beyond; try assumption.
  - assert (Hi : forall p k, portable E p k -> portable_beyond E p k) by (intros p k Hk; destruct k; try exact Hk; destruct Hk).
    destruct H3 as [H3 H3']. split; [exact (everywhere_weaker _ _ _ Hi H3)|]. intros i g Hg. exact (everywhere_weaker _ _ _ Hi (H3' i g Hg)).
  - intros k x Hx. split; [exact (H6 k x Hx)|]. intros valid ->. destruct (meets_throughout _ _ _ _ _ _ H3 Hx) as [p []].
Qed.

(** ** Fields and JSON *)

Lemma json_given E k : keyed (Json E) k -> given (Some k) = Some k.
Proof. destruct k as [[|]|]; try reflexivity. intros Hk. exfalso. destruct Hk as [H|[[_ H]|[[e [_ H]]|H]]]; discriminate H. Qed.

Lemma json_found E wrap load k : keyed (Json E) k -> look_up k (formats E wrap load) = Some (Json E).
Proof. intros Hk. apply builtin_formats. split; [unfold builtin; cbn [In]; tauto|exact Hk]. Qed.

(** @prop C80 For every value that conforms to a schema of types JSON can carry, serializing it with the
    format json gives a printable text, and unserializing that text gives exactly the value.  Values whose
    text form is lossy by design are excluded, as for serialization itself ([faithful]). *)
Lemma fields_through_json_partial :
  forall E wrap load desc recon n f v k,
    throughout E well_keyed f -> throughout E (tidy E) f -> throughout E (portable E) f -> throughout E (json_portable E) f ->
    conforms E n f v -> (forall kd x, meets E f v kd x -> faithful E desc recon kd x /\ json_faithful E desc kd x) ->
    keyed (Json E) k ->
    let reg := formats E wrap load in
    exists t,
      field_serialize E desc recon n reg f v (Some k) = Ok (VStr t)
      /\ (forall c, In c t -> (32 <= c <= 126)%N)
      /\ field_unserialize E desc recon n reg f t k = Ok v.
Proof.
  intros E wrap load desc recon n f v k H1 H2 H3 H4 H5 H6 Hk reg.
  destruct (ships_all E desc recon n f v H1 H2 H3 H4 H5 H6) as [w [w' [[Ho _] [Hj [Hi _]]]]].
  destruct (json_roundtrip E w w' Hj) as [t [Ht [Hc Hu]]]. exists t.
  unfold field_serialize, field_unserialize, format_serialize, format_unserialize.
  rewrite (json_given E k Hk), Ho. cbn [bind]. unfold reg. rewrite (json_found E wrap load k Hk). cbn [fm_serialize fm_unserialize Json].
  rewrite Ht, Hu. cbn [bind]. split; [reflexivity|]. split; [exact Hc|apply Hi].
Qed.

(** @example
(* A map from numbers to pairs of a day and an amount. *)
Definition f80 : field := Fld p0 (KMap (Fld p0 (KTuple [Fld p0 (KDate None None); Fld p0 (KDecimal None None)]))
                                   (Some (Fld p_nn (KInteger None None))) None).
Definition v80 : val := VDict false [(VInt (-7), VTuple [VDate (Date 2024 2 29); VDec (DFin true 150 (-2)%Z)]); (VInt 8, VNone)].
Definition reg80 : registry := formats env0 (fun _ t => [t]) (fun _ => Ok VNone).
Lemma sub80 (P : params -> kind -> Prop) :
  P p0 (KMap (Fld p0 (KTuple [Fld p0 (KDate None None); Fld p0 (KDecimal None None)])) (Some (Fld p_nn (KInteger None None))) None) ->
  P p0 (KTuple [Fld p0 (KDate None None); Fld p0 (KDecimal None None)]) -> P p_nn (KInteger None None) ->
  P p0 (KDate None None) -> P p0 (KDecimal None None) -> throughout env0 P f80.
Proof.
  intros H1 H2 H3 H4 H5. split; [|discriminate]. constructor; [exact H1|].
  intros g [<-|[<-|[]]]; constructor; [exact H2| |exact H3|intros ? []].
  intros g [<-|[<-|[]]]; constructor; [exact H4|intros ? []|exact H5|intros ? []].
Qed.
Example C80_fields_example :
  throughout env0 well_keyed f80 /\ throughout env0 (tidy env0) f80 /\ throughout env0 (portable env0) f80 /\ throughout env0 (json_portable env0) f80
  /\ conforms env0 3 f80 v80 /\ (forall kd x, meets env0 f80 v80 kd x -> faithful env0 nodesc norecon kd x /\ json_faithful env0 nodesc kd x)
  /\ keyed (Json env0) (ByText $"json")
  /\ field_serialize env0 nodesc norecon 3 reg80 f80 v80 (Some (ByText $"json"))
     = Ok (VStr $"{""-7"": [""2024-02-29"", ""-1.50""], ""8"": null}")
  /\ field_unserialize env0 nodesc norecon 3 reg80 f80 $"{""-7"": [""2024-02-29"", ""-1.50""], ""8"": null}" (ByText $"json") = Ok v80.
Proof.
  split; [apply sub80; exact I|]. split; [apply sub80; repeat (split; auto; try reflexivity)|].
  split; [apply sub80; try exact I; exists p_nn, (KInteger None None); split; [reflexivity|left; reflexivity]|].
  split; [apply sub80; try exact I; exists p_nn, (KInteger None None); repeat split|].
  split.
  { right. split; [discriminate|]. eexists. split; [reflexivity|]. split; [|split; [|discriminate]].
    - split; [|split; [intros ? []|exact I]]. intros k' [<-|[]]. reflexivity.
    - constructor; [|constructor; [|constructor]]; cbn [fst snd].
      + split; [right; split; [discriminate|]; split; [eexists; split; [reflexivity|split; discriminate]|split; [left; reflexivity|intros _; split; [discriminate|exact I]]]|].
        split; [reflexivity|]. split; [discriminate|]. right. split; [discriminate|]. eexists. split; [reflexivity|].
        constructor; [|constructor; [|constructor]].
        * right. split; [discriminate|]. split; [|split; [left; reflexivity|intros _; split; [discriminate|exact I]]].
          left. eexists. split; [reflexivity|split; discriminate].
        * right. split; [discriminate|]. split; [|split; [left; reflexivity|intros _; split; [discriminate|exact I]]].
          eexists. split; [reflexivity|]. split; [left; split; reflexivity|split; discriminate].
      + split; [right; split; [discriminate|]; split; [eexists; split; [reflexivity|split; discriminate]|split; [left; reflexivity|intros _; split; [discriminate|exact I]]]|].
        split; [reflexivity|]. split; [discriminate|]. left. split; reflexivity. }
  split.
  { intros kd x Hx. unfold f80, v80 in Hx. inversion Hx; subst; clear Hx.
    - split; right; [intros o l d y [= <- <-] [H|[H|[]]]; discriminate|intros o l s y [= <- <-] [H|[H|[]]]; discriminate].
    - match goal with H : In _ _ |- _ => destruct H as [H|[H|[]]]; injection H as <- <- end;
        match goal with H : meets _ _ _ _ _ |- _ => inversion H; subst end; split; right; exact I.
    - match goal with H : In _ _ |- _ => destruct H as [H|[H|[]]]; injection H as <- <- end;
        match goal with H : meets _ _ _ _ _ |- _ => inversion H; subst; clear H end;
        [split; right; exact I| |split; right; exact I].
      destruct i as [|[|i]]; [| |destruct i; discriminate].
      + match goal with H : nth_error _ _ = Some _, H' : nth_error _ _ = Some _ |- _ => injection H as <-; injection H' as <- end.
        match goal with H : meets _ _ _ _ _ |- _ => inversion H; subst; clear H end. split; [|right; exact I].
        right. exists (Date 2024 2 29). split; [reflexivity|]. split; [|right; cbn; lia].
        split; [cbn; lia|]. exists 29%Z. split; [|cbn; lia]. apply ml_leap. split; [exists 506%Z; reflexivity|]. left. intros [z Hz]. cbn in Hz. lia.
      + match goal with H : nth_error _ _ = Some _, H' : nth_error _ _ = Some _ |- _ => injection H as <-; injection H' as <- end.
        match goal with H : meets _ _ _ _ _ |- _ => inversion H; subst; clear H end. split; right; exact I. }
  split; [left; reflexivity|]. split; vm_compute; reflexivity.
Qed.
@end *)

(** @prop C80 So for files: such a value can be written wherever the file may be opened, with the format
    named or taken from the extension of the path, and the field reads exactly the value from the file;
    no other file changes. *)
Lemma fields_in_json_files_partial :
  forall E wrap load desc recon n f v w path format quiet,
    throughout E well_keyed f -> throughout E (tidy E) f -> throughout E (portable E) f -> throughout E (json_portable E) f ->
    conforms E n f v -> (forall kd x, meets E f v kd x -> faithful E desc recon kd x /\ json_faithful E desc kd x) ->
    (exists k, format = Some k /\ keyed (Json E) k) \/ format = None /\ path_with path $"json" ->
    path <> [] -> w_readable w path = true -> w_writable w path = true -> w_node w path <> Some Folder ->
    let reg := formats E wrap load in
    exists w',
      field_write E desc recon n reg w f path v format = (Ok tt, w')
      /\ field_read E desc recon n reg w' f path format quiet = Ok v
      /\ only_changed path w w'.
Proof.
  intros E wrap load desc recon n f v w path format quiet H1 H2 H3 H4 H5 H6 Hf Hp Hr Hw Hn reg.
  destruct (ships_all E desc recon n f v H1 H2 H3 H4 H5 H6) as [x [x' [[Ho _] [Hj [Hi _]]]]].
  destruct (json_roundtrip E x x' Hj) as [t [Ht [Hc Hu]]].
  assert (Hres : resolve E reg None format path = Ok (Json E)).
  { destruct Hf as [[k [-> Hk]]|[-> Hx]].
    - unfold resolve. rewrite (json_given E k Hk). unfold reg. rewrite (json_found E wrap load k Hk). reflexivity.
    - unfold resolve. cbn [given]. rewrite (splitext_with path $"json" Hx). reflexivity. }
  exists (set_file w path t). split; [|split; [|apply set_file_other]].
  - unfold field_write. rewrite Ho. unfold format_write. rewrite Hres. unfold open_new. rewrite Hw. cbn [fm_serialize Json].
    rewrite Ht, encodable_ascii by exact Hc. destruct (w_node w path) as [[| |]|]; try reflexivity. congruence.
  - unfold field_read, format_read. destruct path as [|c path]; [congruence|]. rewrite set_file_same, Hres.
    cbn [bind]. unfold read_file. rewrite set_file_same. cbn [w_readable set_file]. rewrite Hr. cbn [bind fm_unserialize Json].
    rewrite universal_plain; [rewrite Hu; apply Hi|]. intros Hx. apply Hc in Hx. lia.
Qed.

(** @example
Example C80_files_example :
  path_with $"/tmp/data.json" $"json"
  /\ let w := {| w_node := fun _ => None; w_readable := fun _ => true; w_writable := fun _ => true |} in
     let r := field_write env0 nodesc norecon 3 reg80 w f80 $"/tmp/data.json" v80 None in
     fst r = Ok tt /\ field_read env0 nodesc norecon 3 reg80 (snd r) f80 $"/tmp/data.json" None false = Ok v80.
Proof.
  split; [|split; vm_compute; reflexivity].
  exists $"/tmp/", $"data". split; [reflexivity|]. split; [right; exists $"/tmp"; reflexivity|].
  split; [cbn; intuition discriminate|]. split; [exists 100%N; split; [left; reflexivity|discriminate]|].
  split; cbn; intuition discriminate.
Qed.
@end *)

(** @prop C80 Whatever the schema, when the serialized form of a value has something JSON does not know,
    serializing it with the format json is a TypeError; otherwise it succeeds. *)
Lemma fields_refused_by_json :
  forall E wrap load desc recon n f v w k,
    process_gen E desc recon n f false Outbound true [] v = Ok w -> keyed (Json E) k ->
    let reg := formats E wrap load in
    (~ dumpable w -> field_serialize E desc recon n reg f v (Some k) = py TypeError)
    /\ (dumpable w -> exists t, field_serialize E desc recon n reg f v (Some k) = Ok (VStr t)).
Proof.
  intros E wrap load desc recon n f v w k Ho Hk reg. unfold field_serialize, format_serialize.
  rewrite (json_given E k Hk), Ho. cbn [bind]. unfold reg. rewrite (json_found E wrap load k Hk). cbn [fm_serialize Json].
  destruct (json_refuses E w) as [Hd Hn]. split.
  - intros H. rewrite (Hn H). reflexivity.
  - intros H. apply Hd in H. destruct H as [t ->]. exists t. reflexivity.
Qed.

(** @example
Example C80_refused_example :
  let f := Fld p0 (KSequence (Fld p0 (KBinary None None)) None None false) in
  process_gen env0 nodesc norecon 3 f false Outbound true [] (VList [VBytes [1%N]]) = Ok (VList [VBytes $"AQ=="])
  /\ ~ dumpable (VList [VBytes $"AQ=="])
  /\ field_serialize env0 nodesc norecon 3 reg80 f (VList [VBytes [1%N]]) (Some (ByText $"json")) = py TypeError.
Proof.
  split; [vm_compute; reflexivity|]. split; [|vm_compute; reflexivity].
  intros H. inversion H as [| | | | |l Hl| |v l Hl _]; [|discriminate Hl]. specialize (Hl _ (or_introl eq_refl)).
  inversion Hl as [| | | | | | |v' l' Hl' _]. discriminate Hl'.
Qed.
@end *)

(** @prop C80 Some schemas cannot use the format: the only text of JSON a Binary field writes is that of
    null. *)
Lemma binary_as_json :
  forall E wrap load desc recon n p mn mx v k t,
    keyed (Json E) k ->
    field_serialize E desc recon n (formats E wrap load) (Fld p (KBinary mn mx)) v (Some k) = Ok (VStr t) ->
    v = VNone /\ t = $"null".
Proof.
  intros E wrap load desc recon n p mn mx v k t Hk H. unfold field_serialize, format_serialize in H.
  rewrite (json_given E k Hk), (json_found E wrap load k Hk) in H. cbn [fm_serialize Json] in H.
  rewrite process_Fld in H. unfold process_body, process_scalar in H. cbn [kmap kind_ignored andb phase_eqb] in H.
  destruct (is_null _ _ _ _ _) as [nul|] eqn:En; cbn [bind] in H; [|discriminate].
  destruct nul.
  - cbn [bind] in H. split; [|injection H as <-; reflexivity].
    unfold is_null in En. cbn [bind] in En. destruct v; try discriminate En. reflexivity.
  - destruct (match preprocess _ _ _ _ with Ok _ => _ | Raise _ => _ end) as [v2|]; cbn [bind] in H; [|discriminate].
    destruct (if is_none (p_constant p) then _ else _) as [c|]; cbn [bind] in H; [|discriminate].
    destruct c; cbn [negb] in H; [|discriminate].
    destruct (validate_value _ _ _ v2) as [v3|] eqn:Ev; cbn [bind] in H; [|discriminate].
    assert (Hb : exists b, v3 = VBytes b).
    { cbn [validate_value] in Ev. destruct v2; try discriminate Ev. exists b. unfold check_length in Ev.
        repeat match type of Ev with context [if ?c then _ else _] => destruct c; try discriminate Ev end.
        apply ok_inj in Ev. congruence. }
    destruct Hb as [b ->]. cbn [serialize_value] in H. cbn [bind json_serialize] in H. discriminate H.
Qed.

(** @example
Example C80_binary_example :
  field_serialize env0 nodesc norecon 3 reg80 (Fld p0 (KBinary None None)) VNone (Some (ByText $"json")) = Ok (VStr $"null").
Proof. vm_compute. reflexivity. Qed.
@end *)

(** @prop C80 Without these exclusions the claim is false: a conforming value of a Binary field cannot be
    written as JSON; that of an Error field can be written but not read, because its pair becomes a list;
    and a map with a null key is read with the key ['null'].  All of them survive serialization itself. *)
Lemma fields_through_json_refuted :
  let reg := formats env0 (fun _ t => [t]) (fun _ => Ok VNone) in
  let json := ByText $"json" in
  let survives f v := conforms env0 5 f v /\ exists w, run0 f Outbound true v = Ok w /\ run0 f Inbound true w = Ok v in
  (exists f v, survives f v /\ field_serialize env0 nodesc norecon 5 reg f v (Some json) = py TypeError)
  /\ (exists f v t, survives f v
        /\ field_serialize env0 nodesc norecon 5 reg f v (Some json) = Ok (VStr t)
        /\ field_unserialize env0 nodesc norecon 5 reg f t json = invalid_type [$"(error)"])
  /\ (exists f v t v', survives f v /\ v <> v'
        /\ field_serialize env0 nodesc norecon 5 reg f v (Some json) = Ok (VStr t)
        /\ field_unserialize env0 nodesc norecon 5 reg f t json = Ok v').
Proof.
  split; [|split].
  - exists (Fld p0 (KBinary None None)), (VBytes [1]%N). split; [split|].
    + right. split; [discriminate|]. split; [|split; [left; reflexivity|intros _; split; [discriminate|exact I]]]. exists [1%N]. split; [reflexivity|]. split; discriminate.
    + eexists. split; reflexivity.
    + reflexivity.
  - exists (Fld p0 KError), (VErr (Err CStructural [VDict false [(VStr $"message", VStr $"odd")]] [$"(unknown)"] None false)).
    exists $"[[{""message"": ""odd""}], null]". split; [split|].
    + right. split; [discriminate|]. split; [|split; [left; reflexivity|intros _; split; [discriminate|exact I]]]. eexists. reflexivity.
    + eexists. split; reflexivity.
    + split; [vm_compute; reflexivity|vm_compute; reflexivity].
  - exists (Fld p0 (KMap (Fld p0 KBoolean) (Some (Fld p0 (KText None None None true))) None)), (VDict false [(VNone, VBool true)]).
    exists $"{""null"": true}", (VDict false [(VStr $"null", VBool true)]). split; [split|].
    + right. split; [discriminate|]. eexists. split; [reflexivity|]. split; [|split; [|discriminate]].
      * split; [intros k' []|exact I].
      * constructor; [|constructor]. cbn [fst snd]. split; [left; split; reflexivity|]. split; [reflexivity|]. split; [discriminate|].
        right. split; [discriminate|]. split; [|split; [left; reflexivity|intros _; split; [discriminate|exact I]]]. eexists. reflexivity.
    + exists (VDict false [(VNone, VBool true)]). split; vm_compute; reflexivity.
    + split; [discriminate|]. split; vm_compute; reflexivity.
Qed.
