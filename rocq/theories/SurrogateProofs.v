(** * Surrogates (C72). *)
(* @imports Spec Demo RtSpec ExtractSpec SurrogateSpec *)
From Coq Require Import ZifyBool ZifyN ZifyNat.
From Verif Require Import PyBaseFacts Induct Spec Demo ProcessFacts NumFacts StructFacts StructProofs ConfProofs ScalarProofs RtSpec RtProofs ExtractSpec ExtractProofs ConFacts SurrogateSpec YamlProofs UtilProofs.

(** ** The keys of what a structure returns *)

Lemma aget_in_keys {A} s (l : list (str * A)) a : aget s l = Some a -> In s (map fst l).
Proof. intros H. apply aget_In in H. apply in_map_iff. exists (s, a). auto. Qed.

Lemma sset_only k v (P : val -> Prop) l : P (VStr k) -> Forall P (map fst l) -> Forall P (map fst (sset k v l)).
Proof.
  intros Hk. induction l as [|[k' v'] l IH]; intros H; [constructor; auto|]. inversion H; subst.
  destruct k'; cbn [sset map fst]; try (constructor; [assumption|apply IH; assumption]).
  destruct (str_eqb k s); cbn [map fst]; constructor; auto.
Qed.

Section Keys.
Context (E : env) (P : val -> Prop).
Lemma struct_loop_keys defn items partial ph ser anc order names acc valid r :
  (forall s, In s (map fst defn) -> P (VStr s)) -> Forall P (map fst acc) ->
  struct_loop E defn items partial ph ser anc order names acc valid = Ok r -> Forall P (map fst (snd (fst r))).
Proof.
  intros Hd. revert names acc valid. induction order as [|name order IH]; intros names acc valid Hacc H; cbn [struct_loop] in H.
  - apply ok_inj in H. subst r. exact Hacc.
  - destruct (aget name defn) as [c|] eqn:Hc; [|discriminate]. cbn zeta in H.
    assert (Hn : P (VStr name)) by (apply Hd; eapply aget_in_keys; exact Hc).
    apply bind_Ok in H. destruct H as [d [_ H]]. destruct d as [| |v].
    + eapply IH; eauto.
    + eapply IH; [|exact H]. apply sset_only; assumption.
    + destruct (fparams E (fst c)) as [q|]; [|discriminate]. destruct (p_ignore_null q && is_none v).
      * eapply IH; eauto.
      * apply bind_Ok in H. destruct H as [x [_ H]]. eapply IH; [|exact H]. apply sset_only; assumption.
Qed.

Lemma struct_run_keys defn strict ko ident partial ph ser anc items r :
  (forall s, In s (map fst defn) -> P (VStr s)) ->
  struct_run E defn strict ko ident partial ph ser anc items = Ok r -> exists o l, r = VDict o l /\ Forall P (map fst l).
Proof.
  intros Hd H. unfold struct_run in H. apply bind_Ok in H. destruct H as [order [_ H]]. cbn zeta in H.
  apply bind_Ok in H. destruct H as [[[names acc] valid] [Hl H]].
  apply struct_loop_keys in Hl; [|exact Hd|constructor]. cbn [fst snd] in Hl.
  destruct valid; [|discriminate]. destruct strict; cbn [negb orb andb] in H.
  - destruct names; [|discriminate]. apply ok_inj in H. subst r. eexists _, acc. split; [reflexivity|exact Hl].
  - apply ok_inj in H. subst r. eexists _, acc. split; [reflexivity|exact Hl].
Qed.
End Keys.

Lemma schema_keys E desc recon n f ph ser anc v r :
  unreserved f -> process_gen E desc recon n f false ph ser anc v = Ok r ->
  r = VNone \/ exists o l, r = VDict o l /\ forall k, In k (map fst l) -> exists s, k = VStr s /\ ~ reserved s.
Proof.
  intros [p [d [strict [ko [-> Hd]]]]] H. rewrite process_Fld in H. unfold process_body in H. cbn [kmap] in H.
  unfold process_structure in H. apply bind_Ok in H. destruct H as [nul [_ H]].
  destruct nul; [apply ok_inj in H; auto|]. right.
  destruct (as_dict v); [|discriminate]. apply bind_Ok in H. destruct H as [v1 [_ H]].
  destruct (as_dict v1) as [items|]; [|discriminate].
  assert (Hfin : forall defn ident anc items, (forall s, In s (map fst defn) -> ~ reserved s) ->
    struct_run E defn strict ko ident false ph ser anc items = Ok r ->
    exists o l, r = VDict o l /\ forall k, In k (map fst l) -> exists s, k = VStr s /\ ~ reserved s).
  { intros defn ident anc' items' Hr Hrun.
    apply (struct_run_keys E (fun x => exists s, x = VStr s /\ ~ reserved s)) in Hrun.
    - destruct Hrun as [o [l' [-> Hk]]]. exists o, l'. split; [reflexivity|]. apply Forall_forall, Hk.
    - intros s Hs. exists s. split; [reflexivity|exact (Hr s Hs)]. }
  destruct d as [defn|on vs]; cbn [sdef_map] in H.
  - eapply Hfin; [|exact H]. intros s Hs. apply Hd. rewrite map_map in Hs. cbn in Hs. exact Hs.
  - cbn [fst] in H. destruct (fparams E on) as [q|]; [|discriminate].
    cbn zeta in H.
    destruct (match p_name q with Some n0 => sget n0 items | None => dget (e_local E) VNone items end) as [ident|]; [|discriminate].
    destruct (is_none ident) eqn:Hnone; [destruct ident; discriminate|].
    assert (H' : exists defn ident anc', (forall s, In s (map fst defn) -> ~ reserved s)
              /\ struct_run E defn strict ko ident false ph ser anc' items = Ok r).
    { destruct ident; try discriminate Hnone;
      (destruct (p_name q) as [nm|]; [|discriminate];
       apply bind_Ok in H; destruct H as [id' [_ H]];
       destruct (hashable id'); [|discriminate];
       match type of H with context [find ?F ?l] => destruct (find F l) as [[i [|kf rest]]|] eqn:Hf end; try discriminate;
       eexists _, _, _; split; [|exact H];
       apply find_some in Hf; destruct Hf as [Hf _]; apply in_map_iff in Hf; destruct Hf as [[i' l'] [Heq Hin]];
       cbn [fst snd] in Heq; injection Heq as Hi Hl; intros t0 Hs; apply (Hd i' l' t0 Hin);
       rewrite <- Hl in Hs; rewrite map_map in Hs; exact Hs). }
    destruct H' as [defn [id' [anc' [H1 H2]]]]. eapply Hfin; eauto.
Qed.

Lemma schema_result E desc recon n f ph ser anc v r :
  unreserved f -> process_gen E desc recon n f false ph ser anc v = Ok r ->
  r = VNone \/ exists o l, r = VDict o l /\ forall s, reserved s -> ~ In (VStr s) (map fst l).
Proof.
  intros Hun H. destruct (schema_keys E desc recon n f ph ser anc v r Hun H) as [Hr|[o [l [Hr Hk]]]]; [left; exact Hr|right].
  exists o, l. split; [exact Hr|]. intros s Hs Hin. destruct (Hk _ Hin) as [t [[= ->] Ht]]. exact (Ht Hs).
Qed.

(** ** Taking keys out again *)

Lemma sdel_absent k l : ~ In (VStr k) (map fst l) -> sdel k l = l.
Proof.
  induction l as [|[x v] l IH]; [reflexivity|]. cbn [map fst In]. intros H.
  destruct x; cbn [sdel]; try (f_equal; apply IH; tauto).
  destruct (str_eqb_spec k s) as [->|Hne]; [exfalso; tauto|]. f_equal. apply IH. tauto.
Qed.
Lemma sdel_here k x l m : ~ In (VStr k) (map fst l) -> sdel k (l ++ (VStr k, x) :: m) = l ++ m.
Proof.
  induction l as [|[y v] l IH]; cbn [app map fst In]; intros H.
  - cbn [sdel]. rewrite str_eqb_refl. reflexivity.
  - destruct y; cbn [sdel]; try (f_equal; apply IH; tauto).
    destruct (str_eqb_spec k s) as [->|Hne]; [exfalso; tauto|]. f_equal. apply IH. tauto.
Qed.
Lemma sget_absent k l : ~ In (VStr k) (map fst l) -> sget k l = None.
Proof.
  induction l as [|[y v] l IH]; cbn [map fst In sget]; intros H; [reflexivity|].
  destruct y; try (apply IH; tauto). destruct (str_eqb_spec k s) as [->|Hne]; [exfalso; tauto|]. apply IH. tauto.
Qed.
Lemma sget_here k x l m : ~ In (VStr k) (map fst l) -> sget k (l ++ (VStr k, x) :: m) = Some x.
Proof.
  induction l as [|[y v] l IH]; cbn [app map fst In sget]; intros H; [rewrite str_eqb_refl; reflexivity|].
  destruct y; try (apply IH; tauto). destruct (str_eqb_spec k s) as [->|Hne]; [exfalso; tauto|]. apply IH. tauto.
Qed.
Lemma sset_absent k x l : ~ In (VStr k) (map fst l) -> sset k x l = l ++ [(VStr k, x)].
Proof. intros H. apply sset_new, sget_absent, H. Qed.

(** ** A Surrogate field on its values *)

Lemma surrogate_outbound E desc recon n p valid anc impl schema version items :
  pristine p -> permitted E valid impl ->
  process_gen E desc recon (S n) (Fld p (KSurrogate valid)) false Outbound true anc (VSurr impl schema version items)
  = match surr_serialize E desc (fun f a w => process_gen E desc recon n f false Outbound true a w) (VSurr impl schema version items) with
    | Raise (XPy OverflowError) => verr (path_of p (KSurrogate valid) anc) $"overflow"
    | r => r
    end.
Proof.
  intros [Hp Hc] Hv. rewrite process_Fld. unfold process_body. cbn [kmap]. unfold process_scalar, is_null.
  cbn [kind_ignored is_none bind andb phase_eqb]. unfold preprocess. rewrite Hp. cbn [bind]. rewrite Hc. cbn [is_none bind negb validate_value].
  assert (Hval : match valid with
                 | Some (name :: names) => match e_identity E impl with
                     | None => py AttributeError
                     | Some s => if existsb (str_eqb s) (name :: names) then Ok (VSurr impl schema version items) else py KeyError end
                 | _ => Ok (VSurr impl schema version items) end = Ok (VSurr impl schema version items)).
  { destruct valid as [[|t ts]|]; try reflexivity. destruct Hv as [name [-> Hin]].
    assert (Hex : existsb (str_eqb name) (t :: ts) = true).
    { apply existsb_exists. exists name. split; [exact Hin|apply str_eqb_refl]. }
    rewrite Hex. reflexivity. }
  rewrite Hval. cbn [bind]. rewrite <- (path_of_eq p (KSurrogate valid) anc (KSurrogate valid : kindP val child) eq_refl). reflexivity.
Qed.

Lemma surrogate_inbound E desc recon n p valid anc o items :
  pristine p -> 
  process_gen E desc recon (S n) (Fld p (KSurrogate valid)) false Inbound true anc (VDict o items)
  = do w <- surr_unserialize E recon (fun f a w => process_gen E desc recon n f false Inbound true a w)
              (path_of p (KSurrogate valid) anc) (VDict o items);
    validate_value E (KSurrogate valid : kind) (path_of p (KSurrogate valid) anc) w.
Proof.
  intros [Hp Hc]. rewrite process_Fld. unfold process_body. cbn [kmap]. unfold process_scalar, is_null.
  cbn [kind_ignored is_none bind andb phase_eqb].
  cbn [is_none orb bind]. cbv zeta. erewrite (path_of_eq p (KSurrogate valid) anc); [|reflexivity].
  destruct (surr_unserialize _ _ _ _ _) as [w|x]; [|reflexivity]. cbn [bind].
  unfold preprocess. rewrite Hp. cbn [bind]. rewrite Hc. cbn [is_none bind negb].
  destruct (validate_value _ _ _ _); reflexivity.
Qed.

Lemma surrogate_valid E valid anc impl schema version items : permitted E valid impl ->
  validate_value E (KSurrogate valid : kind) anc (VSurr impl schema version items) = Ok (VSurr impl schema version items).
Proof.
  intros Hv. cbn [validate_value]. destruct valid as [[|t ts]|]; try reflexivity. destruct Hv as [name [-> Hin]].
  assert (Hex : existsb (str_eqb name) (t :: ts) = true).
  { apply existsb_exists. exists name. split; [exact Hin|apply str_eqb_refl]. }
  rewrite Hex. reflexivity.
Qed.

(** ** The round trip *)

Lemma schema_returns E desc recon n f items w :
  throughout E (tidy E) f -> unreserved f ->
  (forall anc, process_gen E desc recon n f false Outbound true anc (VDict false items) = Ok w) ->
  (forall anc, process_gen E desc recon n f false Inbound true anc w = Ok (VDict false items)) ->
  exists o l, (forall anc, process_gen E desc recon n f false Outbound true anc (VDict false items) = Ok (VDict o l))
    /\ (forall anc o', process_gen E desc recon n f false Inbound true anc (VDict o' l) = Ok (VDict false items))
    /\ forall s, reserved s -> ~ In (VStr s) (map fst l).
Proof.
  intros H2 Hun Ho Hi.
  assert (Ht : p_preprocessor match f with Fld p _ => p | FUndef _ => p0 end = None).
  { destruct f as [i|p k]; [reflexivity|]. destruct H2 as [H2 _]. apply everywhere_top in H2. apply H2. }
  destruct (schema_result E desc recon n f Outbound true [] _ w Hun (Ho [])) as [-> |[o [l [-> Hl]]]].
  - exfalso. destruct Hun as [p [d [strict [ko [-> _]]]]]. specialize (Hi []). rewrite process_Fld in Hi. unfold process_body in Hi. cbn [kmap] in Hi.
    unfold process_structure, is_null in Hi. cbn [bind is_none orb] in Hi. destruct (p_nonnull p); discriminate.
  - exists o, l. split; [exact Ho|]. split; [|exact Hl]. intros anc o'. rewrite <- (Hi anc).
    destruct Hun as [p [d [strict [ko [-> _]]]]]. rewrite !process_Fld. unfold process_body. cbn [kmap]. unfold process_structure.
    unfold is_null, pre_raw. cbn in Ht. rewrite Ht. reflexivity.
Qed.

Lemma schema_round_trip E desc recon n f items :
  throughout E well_keyed f -> throughout E (tidy E) f -> throughout E (portable E) f -> unreserved f ->
  conforms E n f (VDict false items) -> (forall k x, meets E f (VDict false items) k x -> faithful E desc recon k x) ->
  exists o l, (forall anc, process_gen E desc recon n f false Outbound true anc (VDict false items) = Ok (VDict o l))
    /\ (forall anc o', process_gen E desc recon n f false Inbound true anc (VDict o' l) = Ok (VDict false items))
    /\ forall s, reserved s -> ~ In (VStr s) (map fst l).
Proof.
  intros H1 H2 H3 Hun H4 H5. destruct (serialization_round_trip_partial E desc recon n f _ H1 H2 H3 H4 H5) as [w [Ho Hi]].
  eapply schema_returns; eauto.
Qed.

Lemma versioned_step E desc recon n p valid impl token z f items o l :
  pristine p -> permitted E valid impl -> identified E impl token -> version_schema E impl z f ->
  (forall anc, process_gen E desc recon n f false Outbound true anc (VDict false items) = Ok (VDict o l)) ->
  (forall anc o', process_gen E desc recon n f false Inbound true anc (VDict o' l) = Ok (VDict false items)) ->
  (forall s, reserved s -> ~ In (VStr s) (map fst l)) ->
  exists w,
    (forall anc, process_gen E desc recon (S n) (Fld p (KSurrogate valid)) false Outbound true anc
                   (VSurr impl None (Some z) items) = Ok w)
    /\ (forall anc, process_gen E desc recon (S n) (Fld p (KSurrogate valid)) false Inbound true anc w
                   = Ok (VSurr impl None (Some z) items)).
Proof.
  intros Hp Hv [Htok Himp] [Hz Hf] Ho Hi Hl.
  assert (Hk1 : ~ In (VStr $"_") (map fst l)) by (apply Hl; left; reflexivity).
  assert (Hk2 : ~ In (VStr $"__schema__") (map fst l)) by (apply Hl; right; left; reflexivity).
  assert (Hk3 : ~ In (VStr $"__version__") (map fst l)) by (apply Hl; right; right; reflexivity).
  set (l1 := if (1 <? z)%Z then l ++ [(VStr $"__version__", VInt z)] else l).
  exists (VDict o (l1 ++ [(VStr $"_", VStr token)])).
  assert (Hk4 : ~ In (VStr $"_") (map fst l1)).
  { unfold l1. destruct (1 <? z)%Z; [|exact Hk1]. rewrite map_app, in_app_iff. cbn. intros [H|[H|[]]]; [exact (Hk1 H)|discriminate]. }
  assert (Hnz : (z - 1 <? 0)%Z = false) by lia.
  destruct (e_schemas E impl) as [|f0 fs] eqn:Hs; [destruct (Z.to_nat (z - 1)); discriminate|].
  split; intros anc.
  - rewrite surrogate_outbound by assumption. unfold surr_serialize. rewrite Hs. cbn zeta. rewrite Hnz, Hnz, Hf, Ho. cbn [bind].
    assert (He : (if (1 <? z)%Z then entered $"__version__" (VInt z) (VDict o l) else Ok (VDict o l)) = Ok (VDict o l1)).
    { unfold l1, entered. destruct (1 <? z)%Z; [rewrite sset_absent by exact Hk3|]; reflexivity. }
    rewrite He. cbn [bind]. unfold Process.tagged, entered. rewrite Htok, sset_absent by exact Hk4. reflexivity.
  - rewrite surrogate_inbound by assumption. unfold surr_unserialize. cbn [as_dict].
    rewrite sget_here, sdel_here, app_nil_r by exact Hk4. cbn [hashable negb]. rewrite Himp.
    assert (Hk5 : sget $"__schema__" l1 = None).
    { apply sget_absent. unfold l1. destruct (1 <? z)%Z; [|exact Hk2]. rewrite map_app, in_app_iff. cbn. intros [H|[H|[]]]; [exact (Hk2 H)|discriminate]. }
    rewrite Hk5, Hs.
    assert (Hver : match sget $"__version__" l1 with Some w => w | None => VInt 1 end = VInt z).
    { unfold l1. destruct (Z.ltb_spec 1 z) as [Hlt|Hle]; [rewrite sget_here by exact Hk3; reflexivity|].
      rewrite sget_absent by exact Hk3. f_equal. lia. }
    rewrite Hver. cbn zeta. rewrite Hnz, Hnz, Hf.
    assert (Hdel : sdel $"__version__" l1 = l).
    { unfold l1. destruct (1 <? z)%Z; [rewrite sdel_here by exact Hk3; apply app_nil_r|apply sdel_absent, Hk3]. }
    rewrite Hdel, Hi. cbn [bind as_dict]. apply surrogate_valid, Hv.
Qed.

Lemma dynamic_step E desc recon n p valid impl token f d items o l :
  pristine p -> permitted E valid impl -> identified E impl token ->
  desc f = Ok d -> truthy d = true -> recon d = Ok f ->
  (forall anc, process_gen E desc recon n f false Outbound true anc (VDict false items) = Ok (VDict o l)) ->
  (forall anc o', process_gen E desc recon n f false Inbound true anc (VDict o' l) = Ok (VDict false items)) ->
  (forall s, reserved s -> ~ In (VStr s) (map fst l)) ->
  exists w,
    (forall anc, process_gen E desc recon (S n) (Fld p (KSurrogate valid)) false Outbound true anc
                   (VSurr impl (Some f) None items) = Ok w)
    /\ (forall anc, process_gen E desc recon (S n) (Fld p (KSurrogate valid)) false Inbound true anc w
                   = Ok (VSurr impl (Some f) None items)).
Proof.
  intros Hp Hv [Htok Himp] Hd Htd Hr Ho Hi Hl.
  assert (Hk1 : ~ In (VStr $"_") (map fst l)) by (apply Hl; left; reflexivity).
  assert (Hk2 : ~ In (VStr $"__schema__") (map fst l)) by (apply Hl; right; left; reflexivity).
  set (l1 := l ++ [(VStr $"__schema__", d)]).
  exists (VDict o (l1 ++ [(VStr $"_", VStr token)])).
  assert (Hk4 : ~ In (VStr $"_") (map fst l1)).
  { unfold l1. rewrite map_app, in_app_iff. cbn. intros [H|[H|[]]]; [exact (Hk1 H)|discriminate]. }
  split; intros anc.
  - rewrite surrogate_outbound by assumption. unfold surr_serialize. rewrite Ho. cbn [bind]. rewrite Hd. cbn [bind].
    unfold entered. rewrite sset_absent by exact Hk2. cbn [bind]. fold l1. unfold Process.tagged, entered.
    rewrite Htok, sset_absent by exact Hk4. reflexivity.
  - rewrite surrogate_inbound by assumption. unfold surr_unserialize. cbn [as_dict].
    rewrite sget_here, sdel_here, app_nil_r by exact Hk4. cbn [hashable negb]. rewrite Himp.
    unfold l1. rewrite sget_here by exact Hk2. rewrite Htd, Hr. cbn [bind].
    rewrite sdel_here, app_nil_r by exact Hk2. rewrite Hi. cbn [bind as_dict]. apply surrogate_valid, Hv.
Qed.

(** @prop C72 A surrogate of a versioned class whose contents conform to the schema of its version
    serializes, and unserializing the result gives the surrogate back: class, version and contents.
    The class must have the attribute [surrogate]. *)
Lemma versioned_round_trip_partial :
  forall E desc recon n p valid impl token z f items,
    pristine p -> permitted E valid impl -> identified E impl token -> version_schema E impl z f ->
    unreserved f -> throughout E well_keyed f -> throughout E (tidy E) f -> throughout E (portable E) f ->
    conforms E n f (VDict false items) -> (forall k x, meets E f (VDict false items) k x -> faithful E desc recon k x) ->
    exists w,
      (forall anc, process_gen E desc recon (S n) (Fld p (KSurrogate valid)) false Outbound true anc
                     (VSurr impl None (Some z) items) = Ok w)
      /\ (forall anc, process_gen E desc recon (S n) (Fld p (KSurrogate valid)) false Inbound true anc w
                     = Ok (VSurr impl None (Some z) items)).
Proof.
  intros E desc recon n p valid impl token z f items Hp Hv Hid Hz Hun H1 H2 H3 H4 H5.
  destruct (schema_round_trip E desc recon n f items H1 H2 H3 Hun H4 H5) as [o [l [Ho [Hi Hl]]]].
  eapply versioned_step; eauto.
Qed.

(** @example
(* A class with two versions of its schema, which defines the attribute [surrogate]. *)
Definition env72 : env := {|
  e_pre := e_pre env0; e_ext := e_ext env0; e_inst := e_inst env0; e_pattern := e_pattern env0; e_local := e_local env0;
  e_pad := true; e_udigit := e_udigit env0; e_uword := e_uword env0; e_ulower := e_ulower env0; e_import := e_import env0;
  e_identify := e_identify env0; e_undef := e_undef env0; e_str := e_str env0;
  e_impl := fun t => match t with VStr s => if str_eqb s $"pkg.S" then 1%nat else if str_eqb s $"pkg.T" then 2%nat else 0%nat | _ => 0%nat end;
  e_schemas := fun i => match i with
                        | 1%nat => [Fld p0 (KStructure (SPlain [($"id", Fld p_req (KInteger None None))]) true None);
                                    Fld p0 (KStructure (SPlain [($"id", Fld p_req (KInteger None None)); ($"day", Fld p0 (KDate None None))]) true None)]
                        | _ => [] end;
  e_surrogate := fun i => match i with 1%nat => Some $"pkg.S" | 2%nat => Some $"pkg.T" | _ => None end; e_identity := fun _ => None;
  e_compile := e_compile env0; e_repr := e_repr env0 |}.
Definition f72 : field := Fld p0 (KSurrogate None).
Example C72_example :
  let s := VSurr 1 None (Some 2%Z) [(VStr $"id", VInt 4); (VStr $"day", VDate (Date 2024 2 29))] in
  let w := VDict false [(VStr $"id", VInt 4); (VStr $"day", VStr $"2024-02-29"); (VStr $"__version__", VInt 2); (VStr $"_", VStr $"pkg.S")] in
  process_gen env72 nodesc norecon 1 f72 false Outbound true [] s = Ok w
  /\ process_gen env72 nodesc norecon 1 f72 false Inbound true [] w = Ok s.
Proof. vm_compute. auto. Qed.
@end *)

(** @prop C72 A surrogate with a schema of its own: if the schema is reconstructed from its
    description, the serialized form gives the surrogate back with its schema. *)
Lemma dynamic_round_trip_partial :
  forall E desc recon n p valid impl token f d items,
    pristine p -> permitted E valid impl -> identified E impl token ->
    desc f = Ok d -> truthy d = true -> recon d = Ok f ->
    unreserved f -> throughout E well_keyed f -> throughout E (tidy E) f -> throughout E (portable E) f ->
    conforms E n f (VDict false items) -> (forall k x, meets E f (VDict false items) k x -> faithful E desc recon k x) ->
    exists w,
      (forall anc, process_gen E desc recon (S n) (Fld p (KSurrogate valid)) false Outbound true anc
                     (VSurr impl (Some f) None items) = Ok w)
      /\ (forall anc, process_gen E desc recon (S n) (Fld p (KSurrogate valid)) false Inbound true anc w
                     = Ok (VSurr impl (Some f) None items)).
Proof.
  intros E desc recon n p valid impl token f d items Hp Hv Hid Hd Htd Hr Hun H1 H2 H3 H4 H5.
  destruct (schema_round_trip E desc recon n f items H1 H2 H3 Hun H4 H5) as [o [l [Ho [Hi Hl]]]].
  eapply dynamic_step; eauto.
Qed.

(** @example
(* The schema is described by its number here. *)
Definition dyn72 : field := Fld p0 (KStructure (SPlain [($"id", Fld p_req (KInteger None None))]) true None).
Example C72_dynamic :
  let desc := fun f : field => Ok (VInt 7) in
  let recon := fun v : val => match v with VInt 7 => Ok dyn72 | _ => py ValueError end in
  let s := VSurr 2 (Some dyn72) None [(VStr $"id", VInt 4)] in
  let w := VDict false [(VStr $"id", VInt 4); (VStr $"__schema__", VInt 7); (VStr $"_", VStr $"pkg.T")] in
  process_gen env72 desc recon 1 f72 false Outbound true [] s = Ok w
  /\ process_gen env72 desc recon 1 f72 false Inbound true [] w = Ok s.
Proof. vm_compute. auto. Qed.
@end *)

(** @prop C72 A surrogate without any schema keeps its contents as they are. *)
Lemma bare_round_trip_partial :
  forall E desc recon n p valid impl token items,
    pristine p -> permitted E valid impl -> identified E impl token -> e_schemas E impl = [] ->
    ~ In (VStr $"_") (map fst items) -> ~ In (VStr $"__schema__") (map fst items) ->
    exists w,
      (forall anc, process_gen E desc recon (S n) (Fld p (KSurrogate valid)) false Outbound true anc
                     (VSurr impl None None items) = Ok w)
      /\ (forall anc, process_gen E desc recon (S n) (Fld p (KSurrogate valid)) false Inbound true anc w
                     = Ok (VSurr impl None None items)).
Proof.
  intros E desc recon n p valid impl token items Hp Hv [Htok Himp] Hs Hk1 Hk2.
  exists (VDict false (items ++ [(VStr $"_", VStr token)])). split; intros anc.
  - rewrite surrogate_outbound by assumption. unfold surr_serialize. rewrite Hs. unfold Process.tagged, entered.
    rewrite Htok, sset_absent by exact Hk1. reflexivity.
  - rewrite surrogate_inbound by assumption. unfold surr_unserialize. cbn [as_dict].
    rewrite sget_here, sdel_here, app_nil_r by exact Hk1. cbn [hashable negb]. rewrite Himp.
    rewrite sget_absent by exact Hk2. rewrite Hs. cbn [bind]. apply surrogate_valid, Hv.
Qed.

(** @example
Example C72_bare :
  let s := VSurr 2 None None [(VStr $"id", VInt 4)] in
  let w := VDict false [(VStr $"id", VInt 4); (VStr $"_", VStr $"pkg.T")] in
  process_gen env72 nodesc norecon 1 f72 false Outbound true [] s = Ok w
  /\ process_gen env72 nodesc norecon 1 f72 false Inbound true [] w = Ok s.
Proof. vm_compute. auto. Qed.
@end *)

Lemma restorable_trips E desc recon n m f v N :
  restorable E desc recon n m f v -> (n + m * S n <= N)%nat -> exists w, trips E desc recon N f v w.
Proof.
  revert f v N. induction m as [|m IH]; intros f v N H HN;
    (assert (HN' : N = (n + (N - n))%nat) by lia; rewrite HN'; destruct H as [H1 [H2 [H3 [H4 [H5 H6]]]]];
     apply round_trip_beyond; try assumption; intros k x Hx; split; [exact (H5 k x Hx)|]; intros valid -> p M Hp Hc Hxn HM;
     specialize (H6 valid x Hx Hxn)).
  - destruct H6.
  - destruct M as [|M]; [lia|]. destruct H6 as [impl [token [schema [version [items [-> [Hv [Hid H6]]]]]]]].
    assert (Hpr : pristine p) by (split; assumption).
    assert (Hback : forall g, unreserved g -> restorable E desc recon n m g (VDict false items) ->
      exists o l, (forall anc, process_gen E desc recon M g false Outbound true anc (VDict false items) = Ok (VDict o l))
        /\ (forall anc o', process_gen E desc recon M g false Inbound true anc (VDict o' l) = Ok (VDict false items))
        /\ forall s, reserved s -> ~ In (VStr s) (map fst l)).
    { intros g Hun Hg. destruct (IH g _ M Hg) as [w [Ho [Hi _]]]; [lia|].
      assert (Ht : throughout E (tidy E) g) by (destruct m; apply Hg). eapply schema_returns; eauto. }
    assert (Hgoal : exists w,
      (forall anc, process_gen E desc recon (S M) (Fld p (KSurrogate valid)) false Outbound true anc (VSurr impl schema version items) = Ok w)
      /\ (forall anc, process_gen E desc recon (S M) (Fld p (KSurrogate valid)) false Inbound true anc w = Ok (VSurr impl schema version items))).
    { destruct schema as [g|], version as [z|]; try contradiction H6.
      - destruct H6 as [d [Hd [Htd [Hr [Hun Hg]]]]]. destruct (Hback g Hun Hg) as [o [l [Ho [Hi Hl]]]]. eapply dynamic_step; eauto.
      - destruct H6 as [g [Hz [Hun Hg]]]. destruct (Hback g Hun Hg) as [o [l [Ho [Hi Hl]]]]. eapply versioned_step; eauto.
      - destruct H6 as [Hs Hr]. apply (bare_round_trip_partial E desc recon M p valid impl token items Hpr Hv Hid Hs); apply Hr;
          [left|right; left]; reflexivity. }
    destruct Hgoal as [w [Ho Hi]]. exists w. split; [exact Ho|]. split; [exact Hi|].
    intros p' k' [= <- <-]. split; discriminate.
Qed.

(** @prop C34 Surrogates inside other values, and inside the contents of other surrogates at any depth, return from
    their serialized form with the values around them. *)
Lemma surrogates_round_trip_partial :
  forall E desc recon n m f v N,
    restorable E desc recon n m f v -> (n + m * S n <= N)%nat ->
    exists w,
      (forall anc, process_gen E desc recon N f false Outbound true anc v = Ok w)
      /\ (forall anc, process_gen E desc recon N f false Inbound true anc w = Ok v).
Proof.
  intros E desc recon n m f v N H HN. destruct (restorable_trips E desc recon n m f v N H HN) as [w [Ho [Hi _]]]. eauto.
Qed.

(** @example
(* A list of surrogates; the first one has a versioned schema and holds another surrogate. *)
Definition holder : field := Fld p0 (KStructure (SPlain [($"inner", Fld p0 (KSurrogate None))]) true None).
Definition env34s : env := {|
  e_pre := e_pre env0; e_ext := e_ext env0; e_inst := e_inst env0; e_pattern := e_pattern env0; e_local := e_local env0;
  e_pad := true; e_udigit := e_udigit env0; e_uword := e_uword env0; e_ulower := e_ulower env0; e_import := e_import env0;
  e_identify := e_identify env0; e_undef := fun _ => None; e_str := e_str env0;
  e_impl := e_impl env72; e_schemas := fun i => match i with 1%nat => [holder; holder] | _ => [] end;
  e_surrogate := e_surrogate env72; e_identity := fun _ => None; e_compile := e_compile env0; e_repr := e_repr env0 |}.
Example C34_surrogates_example :
  let f := Fld p0 (KSequence (Fld p0 (KSurrogate None)) None None false) in
  let plain := VSurr 2 None None [(VStr $"id", VInt 4)] in
  let v := VList [VSurr 1 None (Some 2%Z) [(VStr $"inner", plain)]; VNone; plain] in
  let w := VList [VDict false [(VStr $"inner", VDict false [(VStr $"id", VInt 4); (VStr $"_", VStr $"pkg.T")]);
                               (VStr $"__version__", VInt 2); (VStr $"_", VStr $"pkg.S")];
                  VNone; VDict false [(VStr $"id", VInt 4); (VStr $"_", VStr $"pkg.T")]] in
  restorable env34s nodesc norecon 0 2 f v
  /\ process_gen env34s nodesc norecon 2 f false Outbound true [] v = Ok w
  /\ process_gen env34s nodesc norecon 2 f false Inbound true [] w = Ok v.
Proof.
  intros f plain v w. split; [|vm_compute; split; reflexivity].
  assert (Hany : forall P : params -> kind -> Prop, (forall p d valid, p = p0 -> P p (KSurrogate valid) /\ P p (KStructure (SPlain [(d, Fld p0 (KSurrogate None))]) true None)
                                                   /\ P p (KSequence (Fld p0 (KSurrogate None)) None None false)) ->
            throughout env34s P f /\ throughout env34s P holder).
  { intros P HP. assert (Hs : everywhere P (Fld p0 (KSurrogate None))) by (constructor; [apply (HP p0 [] None eq_refl)|intros g []]).
    split; (split; [|discriminate]); constructor.
    - apply (HP p0 [] None eq_refl).
    - intros g [<-|[]]. exact Hs.
    - apply (HP p0 $"inner" None eq_refl).
    - intros g [<-|[]]. exact Hs. }
  assert (Hwk : throughout env34s well_keyed f /\ throughout env34s well_keyed holder).
  { apply Hany. intros p d valid ->. split; [exact I|]. split; [|exact I]. split; [|exact I]. constructor; [intros []|constructor]. }
  assert (Hti : throughout env34s (tidy env34s) f /\ throughout env34s (tidy env34s) holder).
  { apply Hany. intros p d valid ->. repeat split. }
  assert (Htr : throughout env34s (transportable env34s) f /\ throughout env34s (transportable env34s) holder).
  { apply Hany. intros p d valid ->. repeat split. }
  assert (Hc : forall i z l, conforms env34s 0 (Fld p0 (KSurrogate None)) (VSurr i None z l)).
  { intros i z l. right. split; [discriminate|]. split; [exists i, None, z, l; repeat split; exact I|]. split; [left; reflexivity|].
    intros _. split; [discriminate|exact I]. }
  assert (Hplain : exists impl token schema version items, plain = VSurr impl schema version items
            /\ permitted env34s None impl /\ identified env34s impl token
            /\ schema = None /\ version = None /\ e_schemas env34s impl = [] /\ forall s, reserved s -> ~ In (VStr s) (map fst items)).
  { exists 2%nat, $"pkg.T", None, None, [(VStr $"id", VInt 4)]. split; [reflexivity|]. split; [exact I|]. split; [split; reflexivity|].
    split; [reflexivity|]. split; [reflexivity|]. split; [reflexivity|]. intros s [->|[->| ->]] [H|[]]; discriminate. }
  split; [apply Hwk|]. split; [apply Hti|]. split; [apply Htr|]. split; [|split].
  - right. split; [discriminate|]. exists [VSurr 1 None (Some 2%Z) [(VStr $"inner", plain)]; VNone; plain].
    split; [reflexivity|]. split; [discriminate|]. split; [discriminate|]. split; [|discriminate].
    constructor; [apply Hc|]. constructor; [left; split; reflexivity|]. constructor; [apply Hc|constructor].
  - intros k x Hx. inversion Hx; subst; [right; exact I|]. match goal with H : meets _ (Fld _ (KSurrogate _)) _ _ _ |- _ => inversion H end. right. exact I.
  - intros valid x Hx Hxn. inversion Hx; subst. match goal with H : meets _ (Fld _ (KSurrogate _)) _ _ _ |- _ => inversion H; subst; clear H end.
    match goal with H : In _ _ |- _ => destruct H as [<-|[<-|[<-|[]]]] end; [|congruence|].
    + exists 1%nat, $"pkg.S", None, (Some 2%Z), [(VStr $"inner", plain)]. split; [reflexivity|]. split; [exact I|]. split; [split; reflexivity|].
      exists holder. split; [split; [vm_compute; split; discriminate|reflexivity]|]. split.
      { exists p0, (SPlain [($"inner", Fld p0 (KSurrogate None))]), true, None. split; [reflexivity|]. intros s [<-|[]] [H|[H|H]]; discriminate. }
      split; [apply Hwk|]. split; [apply Hti|]. split; [apply Htr|]. split; [|split].
      * right. split; [discriminate|]. exists [(VStr $"inner", plain)]. split; [reflexivity|]. split; [|split].
        -- apply sublist_take, sublist_nil.
        -- intros k y [[= <- <-]|[]]. exists (Fld p0 (KSurrogate None), conforms env34s 0 (Fld p0 (KSurrogate None))). split; [left; reflexivity|]. apply Hc.
        -- intros k c [<-|[]] _ Hn. exfalso. apply Hn. left. reflexivity.
      * intros k x Hx'. inversion Hx'; subst; [right; exact I|].
        match goal with H : In _ [(_, Fld _ _)] |- _ => destruct H as [[= <- <-]|[]] end.
        match goal with H : meets _ (Fld _ (KSurrogate _)) _ _ _ |- _ => inversion H end. right. exact I.
      * intros valid x Hx' Hxn'. inversion Hx'; subst.
        match goal with H : In _ [(_, Fld _ _)] |- _ => destruct H as [[= <- <-]|[]] end.
        match goal with H : In _ [(_, plain)] |- _ => destruct H as [[= <-]|[]] end.
        match goal with H : meets _ (Fld _ (KSurrogate _)) _ _ _ |- _ => inversion H; subst end.
        destruct Hplain as [impl [token [schema [version [items [-> [H1 [H2 [-> [-> [H3 H4]]]]]]]]]]]. exists impl, token, None, None, items. auto.
    + destruct Hplain as [impl [token [schema [version [items [-> [H1 [H2 [-> [-> [H3 H4]]]]]]]]]]]. exists impl, token, None, None, items. auto.
Qed.
@end *)

(** @prop C72 REFUTED under Python 3 for every class that does not define the attribute [surrogate]
    itself (nothing in the package does): no surrogate of such a class is ever serialized. *)
Lemma surrogate_serialize_refuted :
  forall E desc recon n p valid impl schema version items anc w,
    e_surrogate E impl = None -> pristine p -> permitted E valid impl ->
    process_gen E desc recon (S n) (Fld p (KSurrogate valid)) false Outbound true anc (VSurr impl schema version items) <> Ok w.
Proof.
  intros E desc recon n p valid impl schema version items anc w Hs Hp Hv H.
  rewrite surrogate_outbound in H by assumption.
  assert (Hno : forall x, surr_serialize E desc (fun f a w => process_gen E desc recon n f false Outbound true a w) (VSurr impl schema version items) <> Ok x).
  { intros x Hx. unfold surr_serialize, Process.tagged in Hx. rewrite Hs in Hx.
    destruct schema as [f|].
    - apply bind_Ok in Hx. destruct Hx as [r [_ Hx]]. apply bind_Ok in Hx. destruct Hx as [d [_ Hx]].
      apply bind_Ok in Hx. destruct Hx as [r' [_ Hx]]. discriminate.
    - destruct (e_schemas E impl); [discriminate|]. destruct version as [z|]; [|discriminate]. cbn zeta in Hx.
      match type of Hx with context [if ?c then py IndexError else _] => destruct c end; [discriminate|].
      destruct (nth_error _ _); [|discriminate]. apply bind_Ok in Hx. destruct Hx as [r [_ Hx]].
      apply bind_Ok in Hx. destruct Hx as [r' [_ Hx]]. discriminate. }
  destruct (surr_serialize _ _ _ _) as [y|[e|[]]]; try discriminate. exact (Hno y eq_refl).
Qed.

(** @example
Example C72_not_serialized :
  process_gen env0 nodesc norecon 1 f72 false Outbound true [] (VSurr 0 None None [(VStr $"id", VInt 4)]) = py AttributeError.
Proof. vm_compute. reflexivity. Qed.
@end *)

(** @prop C72 REFUTED for a surrogate given where a serialized one is expected: it is taken for a
    dict, and its class, schema and version are lost. *)
Lemma surrogate_unserialized_twice_refuted :
  exists E f s w,
    process_gen E nodesc norecon 1 f false Inbound true [] s = Ok w
    /\ s = VSurr 1 None (Some 2%Z) [(VStr $"id", VInt 4)] /\ w = VSurr 0 None None [(VStr $"id", VInt 4)].
Proof.
  exists env0, (Fld p0 (KSurrogate None)), (VSurr 1 None (Some 2%Z) [(VStr $"id", VInt 4)]), (VSurr 0 None None [(VStr $"id", VInt 4)]).
  vm_compute. auto.
Qed.

(** @prop C72 What a surrogate of a versioned class serializes to: its contents as the schema of its
    version serializes them, the version if it is above 1, and the class.  Without a version that is a
    TypeError and beyond the last version an IndexError; versions from 0 down count from the last one
    backwards, as the indices of a list do. *)
Lemma versioned_serialize_exact :
  forall E desc recon n p valid anc impl token items,
    pristine p -> permitted E valid impl -> e_surrogate E impl = Some token -> e_schemas E impl <> [] ->
    let out version := process_gen E desc recon (S n) (Fld p (KSurrogate valid)) false Outbound true anc (VSurr impl None version items) in
    let count := Z.of_nat (length (e_schemas E impl)) in
    out None = py TypeError
    /\ (forall z, (z < 1 - count \/ count < z)%Z -> out (Some z) = py IndexError)
    /\ (forall z f o l,
          version_schema E impl z f \/ (z <= 0)%Z /\ version_schema E impl (z + count) f ->
          process_gen E desc recon n f false Outbound true [] (VDict false items) = Ok (VDict o l) ->
          (forall s, reserved s -> ~ In (VStr s) (map fst l)) ->
          ((z <= 1)%Z -> out (Some z) = Ok (VDict o (l ++ [(VStr $"_", VStr token)])))
          /\ ((1 < z)%Z -> out (Some z) = Ok (VDict o (l ++ [(VStr $"__version__", VInt z); (VStr $"_", VStr token)])))).
Proof.
  intros E desc recon n p valid anc impl token items Hp Hv Ht Hs out count.
  assert (Hc : count = zlen (e_schemas E impl)) by reflexivity.
  assert (Hout : forall version, out version = match surr_serialize E desc (fun f a w => process_gen E desc recon n f false Outbound true a w) (VSurr impl None version items) with
      | Raise (XPy OverflowError) => verr (path_of p (KSurrogate valid) anc) $"overflow"
      | r => r
      end) by (intros version; apply surrogate_outbound; assumption).
  clearbody out. unfold surr_serialize in Hout.
  assert (Hes : forall (A : Type) (x : A) (y : A), match e_schemas E impl with [] => x | _ :: _ => y end = y)
    by (intros A x y; destruct (e_schemas E impl); [congruence|reflexivity]).
  assert (Hout' : forall version, out version = match (match version with
              | None => py TypeError
              | Some z =>
                  let i := (z - 1)%Z in
                  let i' := if (i <? 0)%Z then (i + count)%Z else i in
                  if (i' <? 0)%Z then py IndexError
                  else match nth_error (e_schemas E impl) (Z.to_nat i') with
                       | None => py IndexError
                       | Some f =>
                           do r <- process_gen E desc recon n f false Outbound true [] (VDict false items);
                           do r' <- (if (1 <? z)%Z then entered $"__version__" (VInt z) r else Ok r);
                           Process.tagged E impl r'
                       end
              end) with
      | Raise (XPy OverflowError) => verr (path_of p (KSurrogate valid) anc) $"overflow"
      | r => r
      end).
  { intros version. rewrite Hout, Hc. destruct (e_schemas E impl); [congruence|reflexivity]. }
  clear Hout Hes. split; [rewrite Hout'; reflexivity|]. split.
  - intros z Hz. rewrite Hout'. cbn zeta.
    destruct (Z.ltb_spec (z - 1) 0).
    + destruct (Z.ltb_spec (z - 1 + count) 0); [reflexivity|]. lia.
    + destruct (Z.ltb_spec (z - 1) 0); [lia|]. rewrite (proj2 (nth_error_None _ _)); [reflexivity|]. unfold count in Hz. lia.
  - intros z f o l Hf Hr Hres.
    assert (Hn : forall v : val, out (Some z) = match (do r' <- (if (1 <? z)%Z then entered $"__version__" (VInt z) (VDict o l) else Ok (VDict o l)); Process.tagged E impl r') with
      | Raise (XPy OverflowError) => verr (path_of p (KSurrogate valid) anc) $"overflow"
      | r => r
      end).
    { intros _. rewrite Hout'. cbn zeta. destruct Hf as [[Hz Hf]|[Hz0 [Hz Hf]]].
      - destruct (Z.ltb_spec (z - 1) 0); [lia|]. destruct (Z.ltb_spec (z - 1) 0); [lia|]. rewrite Hf, Hr. reflexivity.
      - destruct (Z.ltb_spec (z - 1) 0); [|lia]. destruct (Z.ltb_spec (z - 1 + count) 0); [lia|].
        replace (z - 1 + count)%Z with (z + count - 1)%Z by lia. rewrite Hf, Hr. reflexivity. }
    specialize (Hn VNone). rewrite Hn. split; intros Hz1.
    + destruct (Z.ltb_spec 1 z); [lia|]. cbn [bind]. unfold Process.tagged, entered. rewrite Ht.
      rewrite sset_absent by (apply Hres; left; reflexivity). reflexivity.
    + destruct (Z.ltb_spec 1 z); [|lia]. unfold entered at 1. rewrite sset_absent by (apply Hres; right; right; reflexivity). cbn [bind].
      unfold Process.tagged, entered. rewrite Ht, sset_absent.
      * rewrite <- app_assoc. reflexivity.
      * rewrite map_app, in_app_iff. cbn [map fst In]. intros [H1|[H1|[]]]; [|discriminate H1]. exact (Hres _ (or_introl eq_refl) H1).
Qed.

(** @example
Example C72_versions_example :
  let out version := process_gen env72 nodesc norecon 1 f72 false Outbound true [] (VSurr 1 None version [(VStr $"id", VInt 4)]) in
  out None = py TypeError /\ out (Some 3%Z) = py IndexError /\ out (Some (-2)%Z) = py IndexError
  /\ out (Some 0%Z) = Ok (VDict false [(VStr $"id", VInt 4); (VStr $"_", VStr $"pkg.S")])
  /\ out (Some 2%Z) = Ok (VDict false [(VStr $"id", VInt 4); (VStr $"__version__", VInt 2); (VStr $"_", VStr $"pkg.S")]).
Proof. vm_compute. repeat split. Qed.
@end *)

(** ** Which class, schema and version *)

Lemma sdel_spec k l : without_key k l (sdel k l).
Proof.
  induction l as [|[x v] l [a [b [Hl H]]]].
  - exists [], []. split; [reflexivity|]. left. split; [reflexivity|intros []].
  - assert (Hskip : x <> VStr k -> without_key k ((x, v) :: l) ((x, v) :: sdel k l)).
    { intros Hx. exists ((x, v) :: a), b. split; [cbn [app]; rewrite Hl; reflexivity|]. destruct H as [[-> Hn]|[y [-> Hn]]].
      - left. split; [reflexivity|]. cbn [map fst In]. intros [H|H]; [exact (Hx H)|exact (Hn H)].
      - right. exists y. split; [reflexivity|]. cbn [map fst In]. intros [H|H]; [exact (Hx H)|exact (Hn H)]. }
    destruct x; cbn [sdel]; try (apply Hskip; discriminate).
    destruct (str_eqb_spec k s) as [->|Hne]; [|apply Hskip; congruence].
    exists [], l. split; [reflexivity|]. right. exists v. split; [reflexivity|intros []].
Qed.

(** @prop C72 Unserialization of a dict by a versioned class: the class is the one the key "_" names
    (the base class without it), the version is that of the key "__version__" (1 without it), and the
    contents are what the schema of that version makes of the other entries; a version above the last
    is a ValueError. *)
Lemma versioned_unserialize_exact :
  forall E desc recon n p valid anc o items impl z l1 l2,
    pristine p ->
    impl = match sget $"_" items with None | Some VNone => O | Some t => e_impl E t end ->
    (forall t, sget $"_" items = Some t -> hashable t = true) ->
    without_key $"_" items l1 -> without_key $"__version__" l1 l2 ->
    ~ In (VStr $"__schema__") (map fst items) ->
    e_schemas E impl <> [] ->
    match sget $"__version__" items with None => VInt 1 | Some v => v end = VInt z -> (1 <= z)%Z ->
    let out := process_gen E desc recon (S n) (Fld p (KSurrogate valid)) false Inbound true anc (VDict o items) in
    let path := path_of p (KSurrogate valid) anc in
    ((Z.of_nat (length (e_schemas E impl)) < z)%Z -> out = py ValueError)
    /\ forall f, version_schema E impl z f ->
         (forall x, process_gen E desc recon n f false Inbound true path (VDict false l2) = Raise x -> out = Raise x)
         /\ forall o' l, process_gen E desc recon n f false Inbound true path (VDict false l2) = Ok (VDict o' l) ->
              permitted E valid impl -> out = Ok (VSurr impl None (Some z) l).
Proof.
  intros E desc recon n p valid anc o items impl z l1 l2 Hp Himp Hh Hl1 Hl2 Hsch Hs Hver Hz out path.
  assert (Hwk : forall k l l', without_key k l l' -> l' = sdel k l).
  { intros k l l' [a [b [-> [[-> Hn]|[x [-> Hn]]]]]]; [rewrite sdel_absent by exact Hn|rewrite sdel_here by exact Hn]; reflexivity. }
  apply Hwk in Hl1, Hl2. subst l1 l2.
  assert (Hother : forall k l, k <> $"_" -> sget k (sdel $"_" l) = sget k l).
  { intros k l Hk. induction l as [|[x v] l IH]; [reflexivity|]. destruct x; cbn [sdel sget]; try exact IH.
    destruct (str_eqb_spec $"_" s) as [<- |Hne].
    - destruct (str_eqb_spec k $"_"); [contradiction|reflexivity].
    - cbn [sget]. destruct (str_eqb k s); [reflexivity|exact IH]. }
  assert (Hout : out = do w <- surr_unserialize E recon (fun f a w => process_gen E desc recon n f false Inbound true a w) path (VDict o items);
                       validate_value E (KSurrogate valid : kind) path w) by (apply surrogate_inbound; exact Hp).
  unfold surr_unserialize in Hout. cbn [as_dict] in Hout. cbv zeta in Hout.
  assert (Hhash : hashable match sget $"_" items with Some t => t | None => VNone end = true).
  { destruct (sget $"_" items) as [t|]; [apply Hh; reflexivity|reflexivity]. }
  rewrite Hhash in Hout. cbn [negb] in Hout.
  match type of Hout with context [e_schemas E ?x] => assert (Himp' : x = impl) by (rewrite Himp; destruct (sget $"_" items) as [[]|]; reflexivity) end.
  rewrite Himp' in Hout. rewrite Hother in Hout by discriminate. rewrite (sget_absent _ _ Hsch) in Hout.
  destruct (e_schemas E impl) as [|f0 fs] eqn:Hse; [congruence|]. rewrite Hother in Hout by discriminate.
  assert (Hv' : match sget $"__version__" items with Some w => w | None => VInt 1 end = VInt z) by (destruct (sget $"__version__" items); exact Hver).
  rewrite Hv' in Hout. cbn zeta in Hout.
  assert (Hnz : (z - 1 <? 0)%Z = false) by lia. rewrite Hnz, Hnz in Hout. split.
  - intros Hgt. rewrite Hout. assert (Hn : nth_error (f0 :: fs) (Z.to_nat (z - 1)) = None) by (apply nth_error_None; lia).
    rewrite Hn. reflexivity.
  - intros f [_ Hf]. rewrite Hse in Hf. rewrite Hf in Hout. split.
    + intros x Hx. rewrite Hx in Hout. exact Hout.
    + intros o' l Hl Hperm. rewrite Hl in Hout. cbn [bind as_dict] in Hout. rewrite Hout. apply surrogate_valid, Hperm.
Qed.

(** @example
Example C72_versions :
  process_gen env72 nodesc norecon 1 f72 false Inbound true [] (VDict false [(VStr $"_", VStr $"pkg.S"); (VStr $"id", VInt 4)])
  = Ok (VSurr 1 None (Some 1%Z) [(VStr $"id", VInt 4)])
  /\ process_gen env72 nodesc norecon 1 f72 false Inbound true [] (VDict false [(VStr $"_", VStr $"pkg.S"); (VStr $"__version__", VInt 3); (VStr $"id", VInt 4)])
  = py ValueError
  (* version 0 is the last one *)
  /\ process_gen env72 nodesc norecon 1 f72 false Inbound true [] (VDict false [(VStr $"_", VStr $"pkg.S"); (VStr $"__version__", VInt 0); (VStr $"id", VInt 4)])
  = Ok (VSurr 1 None (Some 0%Z) [(VStr $"id", VInt 4)]).
Proof. vm_compute. auto. Qed.
@end *)

(** @prop C72 Values of other types are refused, unless they are null; a surrogate whose class is
    not among the valid ones makes the error message fail (KeyError), or its missing attribute. *)
Lemma surrogate_refuses :
  forall E desc recon n p valid ph ser anc v,
    pristine p -> v <> VNone ->
    let out := process_gen E desc recon (S n) (Fld p (KSurrogate valid)) false ph ser anc v in
    let path := path_of p (KSurrogate valid) anc in
    (as_dict v = None -> ser = false \/ ph = Inbound -> out = invalid_type path)
    /\ (forall i s w l, v = VSurr i s w l -> ser = false ->
          (permitted E valid i -> out = Ok v)
          /\ (~ permitted E valid i -> out = py AttributeError \/ out = py KeyError)).
Proof.
  intros E desc recon n p valid ph ser anc v [Hp Hc] Hv out path.
  assert (Hout : out = do v1 <- (if ser && phase_eqb ph Inbound then surr_unserialize E recon (fun f a w => process_gen E desc recon n f false Inbound true a w) path v else Ok v);
                 do v3 <- validate_value E (KSurrogate valid : kind) path v1;
                 if ser && phase_eqb ph Outbound then
                   match surr_serialize E desc (fun f a w => process_gen E desc recon n f false Outbound true a w) v3 with
                   | Raise (XPy OverflowError) => verr path $"overflow" | r => r end
                 else Ok v3).
  { unfold out. rewrite process_Fld. unfold process_body. cbn [kmap]. unfold process_scalar, is_null. cbn [kind_ignored bind].
    cbv zeta. erewrite (path_of_eq p (KSurrogate valid) anc); [|reflexivity]. fold path.
    assert (Hn : is_none v || false = false) by (destruct v; try reflexivity; congruence). rewrite Hn. cbn [bind].
    assert (Htail : forall w, (do v2 <- match preprocess E p (KSurrogate valid : kindP val child) w with Ok x => Ok x | Raise _ => construct_invalid (KSurrogate valid : kindP val child) path end;
        do c <- (if is_none (p_constant p) then Ok true else veq_r (e_local E) v2 (p_constant p));
        if negb c then construct_invalid (KSurrogate valid : kindP val child) path else
        do v3 <- validate_value E (KSurrogate valid : kindP val child) path v2;
        if ser && phase_eqb ph Outbound then
          match surr_serialize E desc (fun f a w => sub_of E desc recon (S n) f Outbound true a w) v3 with
          | Raise (XPy OverflowError) => verr path $"overflow" | r => r end
        else Ok v3) =
        do v3 <- validate_value E (KSurrogate valid : kind) path w;
        if ser && phase_eqb ph Outbound then
          match surr_serialize E desc (fun f a w => process_gen E desc recon n f false Outbound true a w) v3 with
          | Raise (XPy OverflowError) => verr path $"overflow" | r => r end
        else Ok v3).
    { intros w. unfold preprocess. rewrite Hp. cbn [bind]. rewrite Hc. reflexivity. }
    match goal with |- bind ?m _ = bind ?m' _ => change m with m'; destruct m' as [w|x]; [|reflexivity] end. cbn [bind]. apply Htail. }
  split.
  - intros Hd Hor. rewrite Hout.
    assert (Hval : forall w, as_dict w = None -> validate_value E (KSurrogate valid : kind) path w = terr path $"invalid").
    { intros w Hw. destruct w; try reflexivity; discriminate. }
    assert (Hun : surr_unserialize E recon (fun f a w => process_gen E desc recon n f false Inbound true a w) path v = terr path $"invalid").
    { unfold surr_unserialize. rewrite Hd. reflexivity. }
    destruct Hor as [-> | ->]; cbn [andb].
    + cbn [bind]. rewrite Hval by exact Hd. reflexivity.
    + destruct ser; cbn [andb phase_eqb]; [rewrite Hun; reflexivity|]. cbn [bind]. rewrite Hval by exact Hd. reflexivity.
  - intros i s w l -> ->. cbn [andb bind] in Hout. split.
    + intros Hperm. rewrite Hout, surrogate_valid by exact Hperm. reflexivity.
    + intros Hno. rewrite Hout. cbn [validate_value]. unfold permitted in Hno. destruct valid as [[|t ts]|]; [exfalso; apply Hno; exact I| |exfalso; apply Hno; exact I].
      destruct (e_identity E i) as [name|] eqn:Hi; [|left; reflexivity]. destruct (existsb _ _) eqn:Hex; [|right; reflexivity].
      exfalso. apply Hno. exists name. split; [reflexivity|]. apply existsb_exists in Hex. destruct Hex as [u [Hu1 Hu2]].
      apply str_eqb_eq in Hu2. subst u. exact Hu1.
Qed.

(** @example
Example C72_refuses :
  process_gen env72 nodesc norecon 1 f72 false Inbound true [] (VInt 3) = invalid_type [$"(surrogate)"]
  /\ process_gen env72 nodesc norecon 1 (Fld p0 (KSurrogate (Some [$"a"]))) false Inbound false [] (VSurr 1 None None []) = py AttributeError.
Proof. vm_compute. auto. Qed.
@end *)

(** ** Construction *)

(** @prop C72 A surrogate constructed by a versioned class from a dict that conforms to the schema
    of the version, by default the last one, holds exactly that dict (apart from the parameters given
    besides), and has the class and the version. *)
Lemma constructed_exact :
  forall E n cls i impl o items version z f,
    impl = match i with Omitted => cls | Named t => e_impl E (VStr t) | Class c => c end ->
    z = match version with Some z => z | None => Z.of_nat (length (e_schemas E impl)) end ->
    version_schema E impl z f ->
    throughout E well_keyed f -> throughout E straight f -> throughout E no_extractor f ->
    conforms E n f (VDict false items) -> no_null_entries (VDict false items) ->
    surr_construct E n cls i (VDict o items) None version [] = Ok (VSurr impl None (Some z) items).
Proof.
  intros E n cls i impl o items version z f Himp Hz [Hrange Hf] H1 H2 H3 H4 H5.
  unfold surr_construct. assert (Hi : implementation_of E cls i = impl) by (rewrite Himp; destruct i; reflexivity). rewrite Hi.
  unfold effective. destruct (e_schemas E impl) as [|f0 fs] eqn:Hs; [destruct (Z.to_nat (z - 1)); discriminate|].
  assert (Hz' : match version with Some z => z | None => zlen (f0 :: fs) end = z) by (rewrite Hz; destruct version; [reflexivity|apply zlen_length]).
  rewrite Hz'. cbn zeta. assert (Hnz : (z - 1 <? 0)%Z = false) by lia. rewrite Hnz, Hnz, Hf. cbn [bind as_dict].
  destruct (extract_conforming E n true f _ H1 H2 H3 H4) as [w [Hw [_ Hsame]]]. rewrite Hw, (Hsame H5). reflexivity.
Qed.

(** @example
Example C72_construct :
  surr_construct env72 0 0 (Named $"pkg.S") (VDict false [(VStr $"id", VInt 4)]) None None []
  = Ok (VSurr 1 None (Some 2%Z) [(VStr $"id", VInt 4)]).
Proof. vm_compute. reflexivity. Qed.
@end *)

(** @prop C72 What construction refuses: a schema for a class that has its own, a version that does
    not exist, and nothing to hold. *)
Lemma construct_refuses :
  forall E n cls i impl value schema version params,
    impl = match i with Omitted => cls | Named t => e_impl E (VStr t) | Class c => c end ->
    let out := surr_construct E n cls i value schema version params in
    (schema <> None -> e_schemas E impl <> [] -> out = py plain_exception)
    /\ (forall z, schema = None -> e_schemas E impl <> [] -> version = Some z ->
          (Z.of_nat (length (e_schemas E impl)) < z)%Z -> out = py plain_exception)
    /\ (e_schemas E impl = [] -> schema = None -> value <> VNone -> as_dict value = None -> out = py ValueError)
    /\ (e_schemas E impl = [] -> value = VNone -> params = [] -> out = py ValueError).
Proof.
  intros E n cls i impl value schema version params Himp out.
  assert (Hi : implementation_of E cls i = impl) by (rewrite Himp; destruct i; reflexivity).
  unfold out, surr_construct. rewrite Hi. unfold effective. repeat split.
  - intros H1 H2. destruct schema; [|congruence]. destruct (e_schemas E impl); [congruence|reflexivity].
  - intros z -> H2 -> H3. destruct (e_schemas E impl) as [|f0 fs]; [congruence|]. cbn zeta. cbn [length] in H3.
    assert (Hnz : (z - 1 <? 0)%Z = false) by lia. rewrite Hnz, Hnz.
    assert (Hn : nth_error (f0 :: fs) (Z.to_nat (z - 1)) = None) by (apply nth_error_None; cbn [length]; lia). rewrite Hn. reflexivity.
  - intros -> -> H3 H4. cbn [bind]. rewrite H4. destruct value; try congruence; reflexivity.
  - intros -> -> ->. destruct schema; reflexivity.
Qed.

(** @example
Example C72_construction_refused :
  surr_construct env72 0 1 Omitted (VDict false []) (Some dyn72) None [] = py plain_exception
  /\ surr_construct env72 0 1 Omitted (VDict false []) None (Some 3%Z) [] = py plain_exception
  /\ surr_construct env72 0 2 Omitted VNone None None [] = py ValueError.
Proof. vm_compute. auto. Qed.
@end *)

(** @prop C72 The parameters are added to the contents: each overrides the entry of its name, the
    other entries stay. *)
Lemma construct_parameters :
  forall E n cls impl value schema version params l0,
    surr_construct E n cls (Class impl) value schema version [] = Ok (VSurr impl schema version l0) ->
    NoDup (map fst params) ->
    exists l, surr_construct E n cls (Class impl) value schema version params = Ok (VSurr impl schema version l)
      /\ forall s, sget s l = match aget s params with Some v => Some v | None => sget s l0 end.
Proof.
  intros E n cls impl value schema version params l0 H Hnd. unfold surr_construct in *. cbn [implementation_of] in *.
  apply bind_Ok in H. destruct H as [[eff ver] [He H]]. rewrite He. cbn [bind].
  assert (Hupd : forall s l, sget s (updated l params) = match aget s params with Some v => Some v | None => sget s l end).
  { clear - Hnd. intros s. unfold updated. induction params as [|[t v] params IH]; intros l; [reflexivity|]. inversion Hnd as [|? ? Hn Hnd']; subst.
    cbn [fold_left fst snd aget]. rewrite (IH Hnd'). rewrite sget_sset. destruct (str_eqb_spec s t) as [->|Hne].
    - assert (Hno : aget t params = None) by (apply aget_None; exact Hn). rewrite Hno. reflexivity.
    - reflexivity. }
  destruct value; try discriminate;
    (apply bind_Ok in H; destruct H as [l' [Hl' H]]; apply bind_Ok in Hl'; destruct Hl' as [w [Hw Hl']];
     rewrite Hw; cbn [bind]; destruct w; try discriminate; apply ok_inj in Hl'; cbn [updated fold_left] in Hl'; subst l';
     apply ok_inj in H; injection H as -> <-;
     eexists; split; [destruct params; reflexivity|]; exact (fun s => Hupd s _)).
Qed.

(** @example
Example C72_parameters :
  surr_construct env72 0 2 Omitted (VDict false [(VStr $"a", VInt 1); (VStr $"b", VInt 2)]) None None [($"b", VInt 3); ($"c", VInt 4)]
  = Ok (VSurr 2 None None [(VStr $"a", VInt 1); (VStr $"b", VInt 3); (VStr $"c", VInt 4)]).
Proof. vm_compute. reflexivity. Qed.
@end *)

(** @prop C72 Acquisition needs a class with schemas and asks it for the version, by default the last;
    a surrogate it answers with is returned, a conforming dict becomes the surrogate of that version. *)
Lemma acquire_exact :
  forall E n acquired cls i impl version z,
    impl = match i with Omitted => cls | Named t => e_impl E (VStr t) | Class c => c end ->
    z = match version with Some z => z | None => Z.of_nat (length (e_schemas E impl)) end ->
    let out := surr_acquire E n acquired cls i version in
    (e_schemas E impl = [] -> out = py ValueError)
    /\ (e_schemas E impl <> [] ->
         (forall x, acquired impl z = Raise x -> out = Raise x)
         /\ (forall a b c l, acquired impl z = Ok (VSurr a b c l) -> out = Ok (VSurr a b c l))
         /\ (forall f o items, acquired impl z = Ok (VDict o items) -> version_schema E impl z f ->
               throughout E well_keyed f -> throughout E straight f -> throughout E no_extractor f ->
               conforms E n f (VDict false items) -> no_null_entries (VDict false items) ->
               out = Ok (VSurr impl None (Some z) items))).
Proof.
  intros E n acquired cls i impl version z Himp Hz out.
  assert (Hi : implementation_of E cls i = impl) by (rewrite Himp; destruct i; reflexivity).
  unfold out, surr_acquire. rewrite Hi. split; [intros ->; reflexivity|]. intros Hs.
  destruct (e_schemas E impl) as [|f0 fs] eqn:Hse; [congruence|].
  assert (Hz' : match version with Some z => z | None => zlen (f0 :: fs) end = z) by (rewrite Hz; destruct version; [reflexivity|apply zlen_length]).
  rewrite Hz'. cbn zeta. repeat split.
  - intros x ->. reflexivity.
  - intros a b c l ->. reflexivity.
  - intros f o items -> Hv H1 H2 H3 H4 H5. cbn [bind].
    apply (constructed_exact E n cls (Class impl) impl o items (Some z) z f); auto.
Qed.

(** @example
Example C72_acquire :
  surr_acquire env72 0 (fun _ z => Ok (VDict false [(VStr $"id", VInt z)])) 0 (Named $"pkg.S") None
  = Ok (VSurr 1 None (Some 2%Z) [(VStr $"id", VInt 2)])
  /\ surr_acquire env72 0 (fun _ z => Ok (VDict false [])) 0 (Named $"pkg.T") None = py ValueError.
Proof. vm_compute. auto. Qed.
@end *)
