(** * Constructors, clones and descriptions (C43 to C45, C52). *)
(* @imports ConSpec CalSpec Demo *)
From Verif Require Import PyBaseFacts Induct ProcessFacts Spec StructFacts StructProofs ConFacts CloneFacts.
From Verif Require Import CalSpec Demo.

(** ** Accepted parameters (C52) *)

Definition succeeds {A} (r : res A) : Prop := exists a, r = Ok a.

Lemma succeeds_Ok {A} (a : A) : succeeds (Ok a).
Proof. eexists; reflexivity. Qed.
Lemma succeeds_bind {A B} (r : res A) (k : A -> res B) (P : Prop) :
  (succeeds r <-> P) -> (forall a, r = Ok a -> succeeds (k a)) -> (succeeds (do x <- r; k x) <-> P).
Proof.
  intros H Hk. rewrite <- H. split.
  - intros [b Hb]. apply bind_Ok in Hb. destruct Hb as [a [Ha _]]. exists a. exact Ha.
  - intros [a Ha]. rewrite Ha. apply Hk, Ha.
Qed.
Lemma succeeds_bind2 {A B} (r : res A) (k : A -> res B) (P Q : Prop) :
  (succeeds r <-> P) -> (forall a, r = Ok a -> (succeeds (k a) <-> Q)) -> (succeeds (do x <- r; k x) <-> P /\ Q).
Proof.
  intros H Hk. rewrite <- H. split.
  - intros [b Hb]. apply bind_Ok in Hb. destruct Hb as [a [Ha Hb]]. split; [exists a; exact Ha|].
    apply (Hk a Ha). exists b. exact Hb.
  - intros [[a Ha] HQ]. apply (Hk a Ha) in HQ. rewrite Ha. exact HQ.
Qed.
Lemma not_ok {A} x : succeeds (Raise x : res A) -> False.
Proof. intros [a Ha]. discriminate. Qed.

Lemma length_arg_iff v : succeeds (length_arg v) <-> optional a_length v.
Proof.
  unfold optional, a_length. split.
  - destruct v; cbn; intros H; try (apply not_ok in H; contradiction); eauto.
    destruct (0 <=? z)%Z eqn:Hz; [|apply not_ok in H; contradiction]. right. left. exists z. split; [reflexivity|lia].
  - intros [-> |[[z [-> Hz]]|[b ->]]]; cbn; try apply succeeds_Ok. apply Z.leb_le in Hz. rewrite Hz. apply succeeds_Ok.
Qed.
Lemma int_arg_iff v : succeeds (int_arg v) <-> optional an_int v.
Proof.
  unfold optional, an_int. split.
  - destruct v; cbn; intros H; try (apply not_ok in H; contradiction); eauto.
  - intros [-> |[[z ->]|[b ->]]]; cbn; apply succeeds_Ok.
Qed.
Lemma segments_arg_iff v : succeeds (segments_arg v) <-> optional an_int v.
Proof.
  unfold optional, an_int. split.
  - destruct v; cbn; intros H; try (apply not_ok in H; contradiction); eauto.
  - intros [-> |[[z ->]|[b ->]]]; cbn; apply succeeds_Ok.
Qed.
Lemma float_arg_iff v : succeeds (float_arg v) <-> optional (fun v => exists x, v = VFloat x) v.
Proof.
  unfold optional. split.
  - destruct v; cbn; intros H; try (apply not_ok in H; contradiction); eauto.
  - intros [-> |[z ->]]; cbn; apply succeeds_Ok.
Qed.
Lemma date_arg_iff E v : succeeds (date_arg E v) <->
  optional (fun v => (exists d, v = VDate d) \/ a_text (fun s => parse_date (e_udigit E) s <> None) v) v.
Proof.
  unfold optional, a_text. split.
  - destruct v; cbn; intros H; try (apply not_ok in H; contradiction); eauto.
    destruct (parse_date _ s) eqn:Hs; [|apply not_ok in H; contradiction]. right. right. exists s. split; congruence.
  - intros [-> |[[d ->]|[s [-> Hs]]]]; cbn; try apply succeeds_Ok. destruct (parse_date _ s); [apply succeeds_Ok|congruence].
Qed.
Lemma time_arg_iff E v : succeeds (time_arg E v) <->
  optional (fun v => (exists d, v = VTime d) \/ a_text (fun s => parse_tod (e_udigit E) s <> None) v) v.
Proof.
  unfold optional, a_text. split.
  - destruct v; cbn; intros H; try (apply not_ok in H; contradiction); eauto.
    destruct (parse_tod _ s) eqn:Hs; [|apply not_ok in H; contradiction]. right. right. exists s. split; congruence.
  - intros [-> |[[d ->]|[s [-> Hs]]]]; cbn; try apply succeeds_Ok. destruct (parse_tod _ s); [apply succeeds_Ok|congruence].
Qed.
Lemma dec_arg_iff E v : succeeds (dec_arg E v) <->
  optional (fun v => (exists d, v = VDec d) \/ a_text (fun s => to_dec (e_udigit E) (VStr s) <> None) v) v.
Proof.
  unfold optional, a_text. split.
  - destruct v; unfold dec_arg; intros H; try (apply not_ok in H; contradiction); eauto.
    destruct (to_dec _ (VStr s)) eqn:Hs; [|apply not_ok in H; contradiction]. right. right. exists s. split; congruence.
  - intros [-> |[[d ->]|[s [-> Hs]]]]; unfold dec_arg; try apply succeeds_Ok.
    destruct (to_dec _ (VStr s)); [apply succeeds_Ok|congruence].
Qed.
Lemma datetime_arg_iff E utc v : succeeds (datetime_arg E utc v) <->
  optional (fun v => (exists dt, v = VDateTime dt /\ convertible E utc dt)
                \/ a_text (fun s => exists dt, parse_datetime (e_udigit E) s = Some dt /\ convertible E utc dt) v) v.
Proof.
  unfold optional, a_text, convertible. split.
  - destruct v; cbn; intros H; try (apply not_ok in H; contradiction); eauto.
    + destruct (parse_datetime _ s) eqn:Hs; [|apply not_ok in H; contradiction]. right. right. exists s.
      split; [reflexivity|]. exists d. split; [exact Hs|]. destruct H as [a H]. apply bind_Ok in H.
      destruct H as [x [Hx _]]. eauto.
    + right. left. eexists. split; [reflexivity|]. destruct H as [a H]. apply bind_Ok in H.
      destruct H as [x [Hx _]]. eauto.
  - intros [-> |[[d [-> [x Hx]]]|[s [-> [d [Hs [x Hx]]]]]]]; cbn; try apply succeeds_Ok.
    + rewrite Hx. apply succeeds_Ok.
    + rewrite Hs, Hx. apply succeeds_Ok.
Qed.
Lemma natives_iff l : succeeds (natives l) <-> Forall serializable l.
Proof.
  unfold natives.
  assert (H : forallb natively_serializable l = true <-> Forall serializable l).
  { rewrite forallb_forall, Forall_forall. split; intros H x Hx; specialize (H x Hx); destruct x; cbn in *; auto; discriminate. }
  rewrite <- H. destruct (forallb natively_serializable l).
  - split; intros; [reflexivity|apply succeeds_Ok].
  - split; intros Hx; [apply not_ok in Hx; contradiction|discriminate].
Qed.
Lemma enumeration_arg_iff v : succeeds (enumeration_arg v) <-> a_text (fun _ => True) v \/ a_list serializable v.
Proof.
  unfold a_text, a_list. split.
  - destruct v; cbn; intros H; try (apply not_ok in H; contradiction); eauto.
    + right. apply natives_iff in H. eauto.
    + right. apply natives_iff in H. eauto.
  - intros [[s [-> _]]|[l [[-> | ->] Hl]]]; cbn; [apply succeeds_Ok| |]; apply natives_iff, Hl.
Qed.
Lemma ignored_arg_iff v : succeeds (ignored_arg v) <->
  optional (fun v => a_text (fun _ => True) v \/ exists l, v = VList l /\ Forall serializable l) v.
Proof.
  unfold a_text, optional. split.
  - destruct v; cbn; intros H; try (apply not_ok in H; contradiction); eauto.
    right. right. exists l. split; [reflexivity|]. destruct H as [a H]. apply bind_Ok in H. destruct H as [x [Hx _]].
    apply natives_iff. exists x. exact Hx.
  - intros [-> |[[s [-> _]]|[l [-> Hl]]]]; cbn; try apply succeeds_Ok. apply natives_iff in Hl. destruct Hl as [x ->].
    apply succeeds_Ok.
Qed.
Lemma pattern_arg_iff E v : succeeds (pattern_arg E v) <->
  optional (fun v => (exists i l, v = VObj i l) \/ a_text (fun s => e_compile E s <> None) v) v.
Proof.
  unfold optional, a_text. split.
  - destruct v; cbn; intros H; try (apply not_ok in H; contradiction); eauto.
    destruct (e_compile E s) eqn:Hs; [|apply not_ok in H; contradiction]. right. right. exists s. split; congruence.
  - intros [-> |[[d [l ->]]|[s [-> Hs]]]]; cbn; try apply succeeds_Ok. destruct (e_compile E s); [apply succeeds_Ok|congruence].
Qed.
Lemma field_arg_iff v : succeeds (field_arg v) <-> a_field v.
Proof.
  unfold a_field. split.
  - destruct v; cbn; intros H; try (apply not_ok in H; contradiction); eauto.
  - intros [f ->]. apply succeeds_Ok.
Qed.
Lemma key_arg_iff v : succeeds (key_arg v) <-> optional (fun v => exists p k, v = VField (Fld p k)) v.
Proof.
  unfold optional. split.
  - destruct v; cbn; intros H; try (apply not_ok in H; contradiction); eauto.
    destruct f; [apply not_ok in H; contradiction|eauto].
  - intros [-> |[p [k ->]]]; apply succeeds_Ok.
Qed.
Lemma required_keys_arg_iff v : succeeds (required_keys_arg v) <->
  optional (fun v => a_text (fun _ => True) v \/ a_list (fun _ => True) v) v.
Proof.
  unfold optional, a_text, a_list. split.
  - destruct v; cbn; intros H; try (apply not_ok in H; contradiction); eauto; right; right; exists l;
      (split; [auto|rewrite Forall_forall; auto]).
  - intros [-> |[[s [-> _]]|[l [[-> | ->] _]]]]; apply succeeds_Ok.
Qed.
Lemma each_iff {A B} (f : A -> res B) (P : A -> Prop) l :
  (forall a, succeeds (f a) <-> P a) -> (succeeds (each f l) <-> Forall P l).
Proof.
  intros H. induction l as [|a l IH]; cbn; [split; intros; [constructor|apply succeeds_Ok]|]. split.
  - intros [r Hr]. apply bind_Ok in Hr. destruct Hr as [b [Hb Hr]]. apply bind_Ok in Hr. destruct Hr as [bs [Hbs _]].
    constructor; [apply H; exists b; exact Hb|apply IH; exists bs; exact Hbs].
  - intros HF. inversion HF as [|? ? Ha Hl]; subst. apply H in Ha. destruct Ha as [b ->]. apply IH in Hl.
    destruct Hl as [bs ->]. apply succeeds_Ok.
Qed.
Lemma fields_arg_iff v : succeeds (fields_arg v) <-> a_list a_field v /\ truthy v = true.
Proof.
  unfold a_list. split.
  - destruct v; cbn; intros H; try (apply not_ok in H; contradiction);
      destruct l as [|x l]; try (apply not_ok in H; contradiction); (split; [|reflexivity]); exists (x :: l);
      (split; [auto|]); apply (each_iff field_arg a_field (x :: l) field_arg_iff), H.
  - intros [[l [[-> | ->] Hl]] Ht]; destruct l as [|x l]; try discriminate;
      apply (each_iff field_arg a_field (x :: l) field_arg_iff), Hl.
Qed.

Lemma class_iff v : succeeds (match v with
    | VStr s => match find_cls s with Some _ => Ok s | None => py ValueError end
    | _ => if hashable v then py ValueError else py TypeError end) <-> a_text (fun w => exists c, cls_name c = w) v.
Proof.
  unfold a_text. split.
  - destruct v; intros H;
      try (match type of H with succeeds (if ?b then _ else _) => destruct b; apply not_ok in H; contradiction end).
    destruct (find_cls s) as [c|] eqn:Hs; [|apply not_ok in H; contradiction]. exists s. split; [reflexivity|].
    exists c. unfold find_cls in Hs. apply find_some in Hs. destruct Hs as [_ Hs]. apply str_eqb_eq in Hs. exact Hs.
  - intros [s [-> [c <-]]]. rewrite find_cls_name. apply succeeds_Ok.
Qed.

Lemma split_space_nonempty s : split_space s <> [].
Proof. apply split_on_nonempty. Qed.

Lemma valid_fields_arg_iff v : succeeds (valid_fields_arg v) <->
  truthy v = false /\ (forall s, v <> VStr s)
  \/ a_text (fun s => Forall (fun w => exists c, cls_name c = w) (split_space s)) v
  \/ a_list (a_text (fun w => exists c, cls_name c = w)) v.
Proof.
  set (test := fun x => match x with
    | VStr s => match find_cls s with Some _ => Ok s | None => py ValueError end
    | _ => if hashable x then py ValueError else py TypeError end).
  assert (Hlist : forall l, succeeds (do names <- each test l; Ok (Some names)) <-> Forall (a_text (fun w => exists c, cls_name c = w)) l).
  { intros l. rewrite <- (each_iff test (a_text (fun w => exists c, cls_name c = w)) l class_iff). split.
    - intros [r Hr]. apply bind_Ok in Hr. destruct Hr as [b [Hb _]]. exists b. exact Hb.
    - intros [r ->]. apply succeeds_Ok. }
  assert (Hother : (forall s, v <> VStr s) -> (forall l, v <> VList l /\ v <> VTuple l) ->
    (succeeds (valid_fields_arg v) <-> truthy v = false /\ (forall s, v <> VStr s)
       \/ a_text (fun s => Forall (fun w => exists c, cls_name c = w) (split_space s)) v
       \/ a_list (a_text (fun w => exists c, cls_name c = w)) v)).
  { intros H1 H2. replace (valid_fields_arg v) with (if truthy v then py TypeError else Ok None : res (option (list str))).
    2: { destruct v; try reflexivity; exfalso; [eapply H1; reflexivity|eapply (proj1 (H2 _)); reflexivity|eapply (proj2 (H2 _)); reflexivity]. }
    destruct (truthy v).
    - split; [intros H; apply not_ok in H; contradiction|].
      intros [[H _]|[[s [H _]]|[l' [[H|H] _]]]]; [discriminate| | |]; exfalso; [apply (H1 _ H)|apply (proj1 (H2 _) H)|apply (proj2 (H2 _) H)].
    - split; [intros _; left; auto|intros _; apply succeeds_Ok]. }
  destruct v; try (apply Hother; [discriminate|intros; split; discriminate]).
  - unfold valid_fields_arg. pose proof (split_space_nonempty s) as Hne.
    assert (Hs : Forall (a_text (fun w => exists c, cls_name c = w)) (map VStr (split_space s))
                 <-> Forall (fun w => exists c, cls_name c = w) (split_space s)).
    { rewrite Forall_map. unfold a_text. split; apply Forall_impl; [intros w [x [He Hx]]; injection He as ->; exact Hx|eauto]. }
    destruct (split_space s) as [|x l] eqn:Hsp; [congruence|]. cbn [map truthy]. rewrite <- (map_cons VStr).
    split.
    + intros H. apply Hlist, Hs in H. right. left. exists s. split; [reflexivity|]. rewrite Hsp. exact H.
    + intros [[_ H]|[[s' [He H]]|[l' [[H|H] _]]]]; try discriminate; [congruence|]. injection He as <-. rewrite Hsp in H.
      apply Hlist, Hs, H.
  - destruct l as [|x l]; [split; [intros _; left; split; [reflexivity|discriminate]|intros _; apply succeeds_Ok]|].
    change (succeeds (do names <- each test (x :: l); Ok (Some names)) <->
      truthy (VList (x :: l)) = false /\ (forall s, VList (x :: l) <> VStr s)
      \/ a_text (fun s => Forall (fun w => exists c, cls_name c = w) (split_space s)) (VList (x :: l))
      \/ a_list (a_text (fun w => exists c, cls_name c = w)) (VList (x :: l))).
    rewrite Hlist. split; [intros H; right; right; exists (x :: l); auto|].
    intros [[H _]|[[s' [He H]]|[l' [[H|H] HF]]]]; try discriminate. injection H as <-. exact HF.
  - destruct l as [|x l]; [split; [intros _; left; split; [reflexivity|discriminate]|intros _; apply succeeds_Ok]|].
    change (succeeds (do names <- each test (x :: l); Ok (Some names)) <->
      truthy (VTuple (x :: l)) = false /\ (forall s, VTuple (x :: l) <> VStr s)
      \/ a_text (fun s => Forall (fun w => exists c, cls_name c = w) (split_space s)) (VTuple (x :: l))
      \/ a_list (a_text (fun w => exists c, cls_name c = w)) (VTuple (x :: l))).
    rewrite Hlist. split; [intros H; right; right; exists (x :: l); auto|].
    intros [[H _]|[[s' [He H]]|[l' [[H|H] HF]]]]; try discriminate. injection H as <-. exact HF.
Qed.

Lemma filter_id {A} (f : A -> bool) l : (forall x, In x l -> f x = true) -> filter f l = l.
Proof.
  induction l as [|a l IH]; intros H; cbn; [reflexivity|]. rewrite H by (left; reflexivity). f_equal. apply IH.
  intros; apply H; right; assumption.
Qed.

Lemma init_field E cl kw : succeeds (init E cl CField kw) <-> succeeds (init_params E kw).
Proof.
  unfold init. cbv zeta. replace (others (class_args CField) kw) with kw.
  - apply succeeds_bind; [reflexivity|intros; apply succeeds_Ok].
  - unfold others. rewrite filter_id; [reflexivity|]. reflexivity.
Qed.

Lemma nonempty_params E kw base : succeeds (init_params E (nonempty_args kw ++ base)) <-> succeeds (init_params E base).
Proof.
  unfold nonempty_args. destruct (flag $"nonempty" kw); [|reflexivity].
  assert (Ha : forall key, str_eqb key $"required" = false -> str_eqb key $"nonnull" = false ->
    arg key ([($"required", VBool true); ($"nonnull", VBool true)] ++ base) = arg key base).
  { intros key H1 H2. unfold arg. cbn [app aget]. rewrite H1, H2. reflexivity. }
  unfold init_params. cbv zeta. rewrite !Ha by reflexivity.
  change (others base_args ([($"required", VBool true); ($"nonnull", VBool true)] ++ base)) with (others base_args base).
  repeat match goal with |- succeeds (do x <- ?r; _) <-> _ => destruct r; cbn [bind]; [|reflexivity] end.
  split; intros _; apply succeeds_Ok.
Qed.

Lemma iff_both (A B : Prop) : A -> (B <-> A /\ B).
Proof. tauto. Qed.

(** @prop C52 When the parameters common to all classes are acceptable, a constructor accepts exactly
    the documented types of its own parameters. *)
Lemma constructors_accept :
  forall E cl c kw,
    c <> CStructure -> c <> CSurrogate ->
    (exists f, init E cl CField (others (class_args c) kw) = Ok f) ->
    ((exists f, init E cl c kw = Ok f) <-> documented E c kw).
Proof.
  intros E cl c kw Hc Hc' Hb. apply init_field in Hb. change (succeeds (init E cl c kw) <-> documented E c kw).
  assert (Hne : succeeds (init_params E (nonempty_args kw ++ others (class_args c) kw))) by (apply nonempty_params, Hb).
  assert (Hml : succeeds (length_arg (min_length_arg kw)) <-> optional a_length (arg $"min_length" kw)).
  { rewrite length_arg_iff. unfold min_length_arg. destruct (flag $"nonempty" kw && is_none (arg $"min_length" kw)) eqn:Hx; [|reflexivity].
    apply andb_prop in Hx. destruct Hx as [_ Hx]. destruct (arg $"min_length" kw); try discriminate. unfold optional.
    split; [intros _; left; reflexivity|intros _; right; left; exists 1%Z; split; [reflexivity|lia]]. }
  assert (Hlast : forall A B (r : res A) (k : A -> B) P, (succeeds r <-> P) -> (succeeds (do x <- r; Ok (k x)) <-> P)).
  { intros A B r k P H. apply succeeds_bind; [exact H|intros; apply succeeds_Ok]. }
  assert (Hfirst : forall A B (r : res A) (k : A -> res B) P, succeeds r -> (forall a, succeeds (k a) <-> P) ->
                     (succeeds (do x <- r; k x) <-> P)).
  { intros A B r k P [a Ha] H. rewrite Ha. apply H. }
  destruct c; try contradiction; unfold init; cbv zeta; cbn [documented].
  - apply Hfirst; [exact Hb|]. intros p. split; [auto|intros; apply succeeds_Ok].
  - apply Hfirst; [exact Hne|]. intros p. apply succeeds_bind2; [exact Hml|]. intros mn _. apply Hlast, length_arg_iff.
  - apply Hfirst; [exact Hb|]. intros p. split; [auto|intros; apply succeeds_Ok].
  - apply Hfirst; [exact Hb|]. intros p. rewrite and_comm. apply succeeds_bind2; [apply date_arg_iff|]. intros mn _. apply Hlast, date_arg_iff.
  - apply Hfirst; [exact Hb|]. intros p. rewrite and_comm. apply succeeds_bind2; [apply datetime_arg_iff|]. intros mn _. apply Hlast, datetime_arg_iff.
  - apply Hfirst; [exact Hb|]. intros p. apply succeeds_bind2; [apply dec_arg_iff|]. intros mn _. apply Hlast, dec_arg_iff.
  - apply Hfirst; [exact Hb|]. intros p. apply Hlast, valid_fields_arg_iff.
  - destruct (flag $"multiple" kw), (flag $"extended" kw); cbn [andb];
      try (rewrite (and_comm (_ /\ _)), <- (iff_both (~ _) _) by (intros [? ?]; discriminate);
           apply Hfirst; [exact Hne|]; intros p; apply succeeds_bind2; [exact Hml|]; intros mn _; apply Hlast, length_arg_iff).
    split; [intros H; apply not_ok in H; contradiction|intros [_ H]; exfalso; apply H; auto].
  - apply Hfirst; [exact Hb|]. intros p. apply succeeds_bind2; [apply enumeration_arg_iff|]. intros mn _. apply Hlast, ignored_arg_iff.
  - apply Hfirst; [exact Hb|]. intros p. split; [auto|intros; apply succeeds_Ok].
  - apply Hfirst; [exact Hb|]. intros p. apply succeeds_bind2; [apply float_arg_iff|]. intros mn _. apply Hlast, float_arg_iff.
  - apply Hfirst; [exact Hb|]. intros p. apply succeeds_bind2; [apply int_arg_iff|]. intros mn _. apply Hlast, int_arg_iff.
  - apply Hfirst; [exact Hb|]. intros p. apply succeeds_bind2; [apply field_arg_iff|]. intros v _.
    apply succeeds_bind2; [apply key_arg_iff|]. intros k _. apply Hlast, required_keys_arg_iff.
  - apply Hfirst; [exact Hb|]. intros p. split; [auto|intros; apply succeeds_Ok].
  - apply Hfirst; [exact Hb|]. intros p. apply succeeds_bind2; [apply field_arg_iff|]. intros v _.
    apply succeeds_bind2; [apply length_arg_iff|]. intros k _. apply Hlast, length_arg_iff.
  - apply Hfirst; [exact Hne|]. intros p. rewrite and_comm. apply succeeds_bind2; [apply pattern_arg_iff|]. intros pat _.
    apply succeeds_bind2; [exact Hml|]. intros mn _. apply Hlast, length_arg_iff.
  - apply Hfirst; [exact Hb|]. intros p. rewrite and_comm. apply succeeds_bind2; [apply time_arg_iff|]. intros mn _. apply Hlast, time_arg_iff.
  - apply Hfirst; [exact Hb|]. intros p. apply Hlast, segments_arg_iff.
  - apply Hfirst; [exact Hb|]. intros p. apply Hlast, fields_arg_iff.
  - apply Hfirst; [exact Hb|]. intros p. apply Hlast, fields_arg_iff.
  - apply Hfirst; [exact Hb|]. intros p. split; [auto|intros; apply succeeds_Ok].
Qed.

(** @example
Example C52_example :
  (exists f, init env0 (clone env0 3) CText [($"min_length", VInt 2); ($"pattern", VStr $"a+"); ($"help", VStr $"x")] = Ok f)
  /\ (~ exists f, init env0 (clone env0 3) CText [($"min_length", VInt (-2))] = Ok f)
  /\ (~ exists f, init env0 (clone env0 3) CTuple [($"values", VList [])] = Ok f).
Proof.
  split; [|split].
  - apply constructors_accept; [discriminate|discriminate|eexists; reflexivity|]. cbn. split; [split|].
    + right. left. exists 2%Z. split; [reflexivity|lia].
    + left. reflexivity.
    + right. right. exists $"a+". split; [reflexivity|discriminate].
  - rewrite constructors_accept; [|discriminate|discriminate|eexists; reflexivity]. cbn.
    intros [[[H|[[z [H Hz]]|[b H]]] _] _]; [discriminate| |discriminate]. injection H as <-. lia.
  - rewrite constructors_accept; [|discriminate|discriminate|eexists; reflexivity]. intros [_ H]. discriminate.
Qed.
@end *)

Lemma arg_nonempty_args key kw base : str_eqb key $"required" = false -> str_eqb key $"nonnull" = false ->
  arg key (nonempty_args kw ++ base) = arg key base.
Proof.
  intros H1 H2. unfold nonempty_args. destruct (flag $"nonempty" kw); [|reflexivity].
  unfold arg. cbn [app aget]. rewrite H1, H2. reflexivity.
Qed.

Lemma init_params_flags E kw p : init_params E kw = Ok p ->
  p_required p = flag $"required" kw || flag $"nonempty" kw /\ p_nonnull p = flag $"nonnull" kw || flag $"nonempty" kw
  /\ p_default p = arg $"default" kw /\ p_constant p = arg $"constant" kw.
Proof.
  unfold init_params. cbv zeta. intros H.
  repeat (apply bind_Ok in H; destruct H as [? [_ H]]). injection H as <-. cbn. auto.
Qed.

(** @prop C52 [nonempty] makes a field required and nonnull; Binary, Text and Email then have a
    minimum length of one unless another one is given. *)
Lemma nonempty_implies :
  forall E cl c kw p k,
    init E cl c kw = Ok (Fld p k) -> truthy (arg $"nonempty" kw) = true ->
    p_required p = true /\ p_nonnull p = true
    /\ match k with
       | KBinary mn _ | KText _ mn _ _ | KEmail _ _ mn _ =>
           match arg $"min_length" kw with
           | VNone => mn = Some 1%Z
           | VInt z => mn = Some z
           | VBool b => mn = Some (if b then 1 else 0)%Z
           | _ => False
           end
       | _ => True
       end.
Proof.
  intros E cl c kw p k H Hn. fold (flag $"nonempty" kw) in Hn.
  assert (Hplain : forall q, init_params E (others (class_args c) kw) = Ok q -> smem $"nonempty" (class_args c) = false ->
            p_required q = true /\ p_nonnull q = true).
  { intros q Hq Hm. apply init_params_flags in Hq. destruct Hq as [-> [-> _]]. unfold flag at 2 4. rewrite others_arg, Hm.
    unfold flag in Hn. rewrite Hn, !Bool.orb_true_r. auto. }
  assert (Hfront : forall q, init_params E (nonempty_args kw ++ others (class_args c) kw) = Ok q ->
            p_required q = true /\ p_nonnull q = true).
  { intros q Hq. apply init_params_flags in Hq. destruct Hq as [-> [-> _]]. unfold nonempty_args. rewrite Hn. auto. }
  assert (Hmn : forall mn, length_arg (min_length_arg kw) = Ok mn ->
           match arg $"min_length" kw with
           | VNone => mn = Some 1%Z
           | VInt z => mn = Some z
           | VBool b => mn = Some (if b then 1 else 0)%Z
           | _ => False
           end).
  { intros mn. unfold min_length_arg. rewrite Hn. cbn [andb]. destruct (arg $"min_length" kw); cbn; try discriminate.
    - intros [= <-]. reflexivity.
    - intros [= <-]. destruct b; reflexivity.
    - destruct (0 <=? z)%Z; [intros [= <-]; reflexivity|discriminate]. }
  unfold init in H. cbv zeta in H. destruct c;
    try (apply bind_Ok in H; destruct H as [q [Hq H]];
         repeat (apply bind_Ok in H; destruct H as [? [_ H]]); injection H as <- <-;
         destruct (Hplain q Hq eq_refl); auto; fail).
  - apply bind_Ok in H. destruct H as [q [Hq H]]. apply bind_Ok in H. destruct H as [mn [Hm H]].
    apply bind_Ok in H. destruct H as [mx [_ H]]. injection H as <- <-. destruct (Hfront q Hq). split; [assumption|split; [assumption|apply Hmn, Hm]].
  - destruct (_ && _); [discriminate|].
    apply bind_Ok in H. destruct H as [q [Hq H]]. apply bind_Ok in H. destruct H as [mn [Hm H]].
    apply bind_Ok in H. destruct H as [mx [_ H]]. injection H as <- <-. destruct (Hfront q Hq). split; [assumption|split; [assumption|apply Hmn, Hm]].
  - assert (Hs : forall d q, p_required q = true /\ p_nonnull q = true ->
                   p_required (set_default d q) = true /\ p_nonnull (set_default d q) = true /\ True) by (intros d q [? ?]; auto).
    unfold init_structure in H. cbv zeta in H. destruct (as_dict _); [|discriminate]. destruct (truthy _).
    + do 4 (apply bind_Ok in H; destruct H as [? [_ H]]). apply bind_Ok in H. destruct H as [q [Hq H]].
      repeat (apply bind_Ok in H; destruct H as [? [_ H]]). injection H as <- <-. apply Hs, (Hplain q Hq eq_refl).
    + apply bind_Ok in H. destruct H as [? [_ H]]. apply bind_Ok in H. destruct H as [q [Hq H]].
      repeat (apply bind_Ok in H; destruct H as [? [_ H]]). injection H as <- <-. apply Hs, (Hplain q Hq eq_refl).
  - apply bind_Ok in H. destruct H as [q [Hq H]]. apply bind_Ok in H. destruct H as [pat [_ H]].
    apply bind_Ok in H. destruct H as [mn [Hm H]].
    apply bind_Ok in H. destruct H as [mx [_ H]]. injection H as <- <-. destruct (Hfront q Hq). split; [assumption|split; [assumption|apply Hmn, Hm]].
Qed.

(** @example
Example C52_nonempty_example :
  exists p, init env0 (clone env0 3) CText [($"nonempty", VBool true)] = Ok (Fld p (KText None (Some 1%Z) None true))
            /\ p_required p = true /\ p_nonnull p = true.
Proof. eexists. split; [reflexivity|]. split; reflexivity. Qed.
@end *)

(** ** What constructors guarantee *)

Lemma made_of_list E n l : made_of E n (VList l) -> Forall (made_of E n) l.
Proof. cbn. induction l as [|x l IH]; intros H; constructor; [apply H|apply IH, H]. Qed.
Lemma made_of_tuple E n l : made_of E n (VTuple l) -> Forall (made_of E n) l.
Proof. cbn. induction l as [|x l IH]; intros H; constructor; [apply H|apply IH, H]. Qed.
Definition entry_ok E n (kv : val * val) : Prop := fieldless (fst kv) = true /\ made_of E n (snd kv).
Lemma made_of_dict E n v l : made_of E n v -> as_dict v = Some l -> Forall (entry_ok E n) l.
Proof.
  destruct v; cbn [as_dict]; try discriminate; intros H [= <-]; cbn in H; unfold entry_ok;
    (induction l0 as [|[a x] l0 IH] || induction items as [|[a x] l0 IH]); constructor; cbn [fst snd]; tauto.
Qed.

Lemma arg_In key kw v : arg key kw = v -> v <> VNone -> In (key, v) kw.
Proof. unfold arg. destruct (aget key kw) as [w|] eqn:H; intros <- Hn; [apply aget_In, H|contradiction]. Qed.

Lemma arg_fieldless E n c kw key : arguments E n c kw -> smem key (slots c) = false -> key <> $"default" ->
  fieldless (arg key kw) = true.
Proof.
  intros H Hs Hd. destruct (arg key kw) eqn:Ha; try reflexivity; rewrite <- Ha;
    (assert (Hi : In (key, arg key kw) kw) by (apply arg_In; [reflexivity|rewrite Ha; discriminate]));
    specialize (H _ _ Hi); rewrite Hs in H; destruct H; [contradiction|assumption|contradiction|assumption
      |contradiction|assumption|contradiction|assumption].
Qed.

Lemma arg_made E n c kw key : arguments E n c kw -> smem key (slots c) = true -> arg key kw <> VNone ->
  made_of E n (arg key kw).
Proof.
  intros H Hs Hn. pose proof (arg_In key kw _ eq_refl Hn) as Hi. specialize (H _ _ Hi). rewrite Hs in H. exact H.
Qed.

Lemma init_params_sound E kw p : init_params E kw = Ok p ->
  (forall key v, In (key, v) kw -> key = $"default" \/ fieldless v = true) -> constructed_params p.
Proof.
  intros H Hkw.
  assert (Hf : forall key, key <> $"default" -> fieldless (arg key kw) = true).
  { intros key Hk. unfold arg. destruct (aget key kw) eqn:Ha; [|reflexivity]. apply aget_In, Hkw in Ha.
    destruct Ha; [contradiction|assumption]. }
  unfold init_params in H. cbv zeta in H.
  do 2 (apply bind_Ok in H; destruct H as [? [_ H]]). apply bind_Ok in H. destruct H as [asp [Hasp H]].
  do 2 (apply bind_Ok in H; destruct H as [? [_ H]]). apply bind_Ok in H. destruct H as [asp' [Hadd H]]. injection H as <-.
  unfold constructed_params. cbn [p_constant p_title p_description p_notes p_aspects].
  repeat (split; [apply Hf; discriminate|]).
  apply (add_aspects_fieldless _ _ _ Hadd).
  - rewrite Forall_forall. intros [key v] Hi. unfold others in Hi. apply filter_In in Hi. destruct Hi as [Hi Hb].
    destruct (Hkw _ _ Hi) as [-> |Hv]; [discriminate|exact Hv].
  - assert (Ha : fieldless (arg $"aspects" kw) = true) by (apply Hf; discriminate).
    destruct (arg $"aspects" kw) as [ | | | | | | | | | |l|l|o l|i l|i s w l|e|f]; cbn in Hasp;
      try (injection Hasp as <-; reflexivity);
      try (match type of Hasp with (if ?b then _ else _) = _ => destruct b; [discriminate|injection Hasp as <-; reflexivity] end);
      try discriminate; try (destruct l; [injection Hasp as <-; reflexivity|discriminate]).
    all: try (repeat match type of Hasp with context [match ?x with _ => _ end] => destruct x end;
              try discriminate; injection Hasp as <-; reflexivity).
    apply each_ok in Hasp. cbn in Ha. clear -Hasp Ha.
    induction Hasp as [|[a b] [s v] l asp Hab Hl IH]; [reflexivity|]. cbn in *. apply andb_prop in Ha. destruct Ha as [Hb Ha].
    destruct a; try discriminate. cbn in Hab. injection Hab as <- <-. rewrite Hb. apply IH, Ha.
Qed.

Lemma length_arg_natural v o : length_arg v = Ok o -> natural o.
Proof.
  destruct v; cbn; try discriminate; intros H.
  - injection H as <-. exact I.
  - injection H as <-. cbn. destruct b; cbn; lia.
  - destruct (0 <=? z)%Z eqn:Hz; [injection H as <-; cbn; lia|discriminate].
Qed.

Lemma natives_ok l l' : natives l = Ok l' -> forallb fieldless l = true -> values_ok l'.
Proof. unfold natives. destruct (forallb natively_serializable l) eqn:H; [|discriminate]. intros [= <-] Hf. split; assumption. Qed.

Lemma values_ok_strs l : values_ok (map VStr l).
Proof. split; [|apply fieldless_strs]. induction l; auto. Qed.

Lemma each_field_made E n l fs : Forall (made_of E n) l -> each field_arg l = Ok fs -> Forall (fun g => sound E g /\ within n g) fs.
Proof.
  intros H He. apply each_ok in He. revert H. induction He as [|a b l fs Hab Hl IH]; intros H; constructor.
  - inversion H as [|? ? Ha _]; subst. destruct a; cbn in Hab; try discriminate. injection Hab as <-. exact Ha.
  - apply IH. inversion H; assumption.
Qed.

Lemma named_sound E n s f : sound E f /\ within n f -> sound E (named s f) /\ within n (named s f).
Proof.
  intros [Hs Hw]. destruct f as [i|p k]; [auto|]. cbn [named].
  assert (H : sound E (Fld (set_name (Some s) p) k) /\ within n (Fld (set_name (Some s) p) k)).
  { split; [|destruct n; [contradiction|exact Hw]]. apply sound_Fld in Hs. apply sound_Fld. exact Hs. }
  destruct (p_name p) as [[|c m]|]; auto.
Qed.

Lemma structure_items_made E n v l : made_of E n v -> structure_items v = Ok l ->
  Forall (fun kf => has_name kf /\ sound E (snd kf) /\ within n (snd kf)) l.
Proof.
  unfold structure_items. destruct (as_dict v) as [items|] eqn:Hd; [|discriminate]. intros Hm He.
  pose proof (made_of_dict E n v items Hm Hd) as HF. apply each_ok in He. clear -HF He.
  induction He as [|[a x] [s f] items l Hab Hl IH]; constructor; [|apply IH; inversion HF; assumption].
  inversion HF as [|? ? [_ Hx] _]; subst. cbn [fst snd] in *. destruct x; cbn in Hab; try discriminate.
  destruct a; cbn in Hab; try discriminate. injection Hab as <- <-. cbn [made_of] in Hx.
  split; [|apply named_sound, Hx]. unfold has_name. cbn [fst snd]. destruct f0 as [i|p k]; [exact I|].
  cbn [named]. destruct p as [[[|c m]|]]; cbn; split; try discriminate; auto; intros [= <-]; reflexivity.
Qed.

Lemma entry_dset E n L a x d : entry_ok E n (a, x) -> Forall (entry_ok E n) d -> Forall (entry_ok E n) (dset L a x d).
Proof.
  intros Ha Hd. induction Hd as [|[b y] d Hb Hd IH]; cbn; [constructor; [exact Ha|constructor]|].
  destruct (veq L b a); constructor; auto. split; [apply Hb|apply Ha].
Qed.

Lemma made_of_entries E n o l : Forall (entry_ok E n) l -> made_of E n (VDict o l).
Proof.
  cbn. induction l as [|[a x] l IH]; intros H; [exact I|]. inversion H as [|? ? [H1 H2] H3]; subst.
  split; [exact H1|]. split; [exact H2|apply IH, H3].
Qed.

Lemma sdel_no_key k l v : NoDup (map fst l) -> ~ In (VStr k, v) (sdel k l).
Proof.
  induction l as [|[a x] l IH]; cbn; [intros _ []|]. intros H. inversion H as [|? ? Ha Hl]; subst.
  destruct a; try (intros [Hi|Hi]; [discriminate|exact (IH Hl Hi)]).
  destruct (str_eqb_spec k s) as [-> |Hn]; [intros Hi; apply Ha; change (VStr s) with (fst (VStr s, v)); apply in_map, Hi|].
  intros [Hi|Hi]; [congruence|exact (IH Hl Hi)].
Qed.

Lemma sdel_In k l kv : In kv (sdel k l) -> In kv l.
Proof.
  induction l as [|[a x] l IH]; cbn; [intros []|]. destruct a; try (intros [H|H]; [auto|right; auto]).
  destruct (str_eqb k s); [intros H; right; exact H|]. intros [H|H]; [left; exact H|right; apply IH, H].
Qed.

Lemma merge_common_ok E n l items : merge_common E l = Ok items -> NoDup (map fst l) -> Forall (entry_ok E n) l ->
  Forall (fun kv => entry_ok E n kv /\ fst kv <> VStr $"*") items.
Proof.
  unfold merge_common. destruct (sget $"*" l) as [common|] eqn:Hs.
  - intros He Hnd HF. apply each_ok in He.
    assert (Hc : forall c, as_dict common = Some c -> Forall (entry_ok E n) c).
    { intros c Hd. apply sget_In in Hs. rewrite Forall_forall in HF. destruct (HF _ Hs) as [_ Hm]. cbn in Hm.
      apply (made_of_dict E n common c Hm Hd). }
    assert (HF' : Forall (fun kv => entry_ok E n kv /\ fst kv <> VStr $"*") (sdel $"*" l)).
    { rewrite Forall_forall in *. intros [a x] Hi. split; [apply HF, (sdel_In _ _ _ Hi)|]. cbn. intros ->.
      apply (sdel_no_key _ _ _ Hnd Hi). }
    clear HF Hs Hnd. revert HF'. induction He as [|[a x] [b y] rest items Hab Hl IH]; intros HF; [constructor|].
    inversion HF as [|? ? [[H1 H2] H3] HF']; subst. constructor; [|apply IH, HF']. cbn [fst snd] in *.
    destruct x; try discriminate. destruct (as_dict common) as [c|] eqn:Hd; [|discriminate]. injection Hab as <- <-.
    split; [|exact H3]. split; [exact H1|]. apply made_of_entries.
    pose proof (made_of_dict E n _ _ H2 eq_refl) as Hx. specialize (Hc c eq_refl). clear -Hx Hc.
    revert l0 Hx. induction Hc as [|[u w] c Hu Hc IH]; intros d Hx; [exact Hx|]. cbn. apply IH, entry_dset; assumption.
  - intros [= <-] _ HF. rewrite Forall_forall in *. intros [a x] Hi. split; [apply HF, Hi|]. cbn. intros ->.
    rewrite sget_None in Hs. apply (Hs x Hi).
Qed.

Lemma discriminator_sound E n name keys : sound E (discriminator name keys) /\ within (S n) (discriminator name keys).
Proof.
  split; [|intros g []]. apply sound_Fld. split; [repeat split|]. split; [|intros g []].
  split; [apply values_ok_strs|discriminate].
Qed.

Lemma replaced_required p : p_required (replaced [($"required", VBool true)] p) = true.
Proof. reflexivity. Qed.

Lemma valid_fields_constructed v vf : valid_fields_arg v = Ok vf ->
  inhabited_list vf /\ forall l s, vf = Some l -> In s l -> exists c, cls_name c = s.
Proof.
  unfold valid_fields_arg, inhabited_list.
  assert (Hl : forall items, truthy (VList items) = true -> forall vf,
    (do names <- each (fun x => match x with
         | VStr s => match find_cls s with Some _ => Ok s | None => py ValueError end
         | _ => if hashable x then py ValueError else py TypeError end) items; Ok (Some names)) = Ok vf ->
    vf <> Some [] /\ forall l s, vf = Some l -> In s l -> exists c, cls_name c = s).
  { intros items Ht o H. apply bind_Ok in H. destruct H as [names [He H]]. injection H as <-. apply each_ok in He. split.
    - inversion He; subst; [discriminate|discriminate].
    - intros l s [= <-] Hi. clear Ht. induction He as [|a b items names Hab Hl IH]; [contradiction|].
      destruct Hi as [<-|Hi]; [|apply IH, Hi].
      assert (Hx : succeeds (match a with
         | VStr s => match find_cls s with Some _ => Ok s | None => py ValueError end
         | _ => if hashable a then py ValueError else py TypeError end)) by (exists b; exact Hab).
      apply class_iff in Hx. destruct Hx as [w [-> [c Hc]]]. exists c.
      destruct (find_cls w); [injection Hab as <-; exact Hc|discriminate]. }
  destruct v; try (match goal with |- (if truthy ?w then _ else _) = _ -> _ => destruct (truthy w); [discriminate|] end;
                   intros [= <-]; split; [discriminate|intros ? ? [=]]).
  - destruct (truthy _) eqn:Ht; [intros H; apply (Hl _ Ht _ H)|intros [= <-]; split; [discriminate|intros ? ? [=]]].
  - destruct (truthy _) eqn:Ht; [intros H; apply (Hl _ Ht _ H)|intros [= <-]; split; [discriminate|intros ? ? [=]]].
  - destruct (truthy _) eqn:Ht; [intros H; apply (Hl l Ht _ H)|intros [= <-]; split; [discriminate|intros ? ? [=]]].
Qed.

Lemma each_empty {A B} (f : A -> res B) l : each f l = Ok [] -> l = [].
Proof. intros H. apply each_ok in H. inversion H. reflexivity. Qed.

Lemma valid_surrogates_constructed v vs : valid_surrogates_arg v = Ok vs -> inhabited_list vs.
Proof.
  unfold inhabited_list. intros H ->. unfold valid_surrogates_arg in H.
  assert (Hb : forall l, py_iter v = Some l -> truthy v = true -> each as_str l <> Ok []).
  { intros l Hi Ht He. apply each_empty in He. subst l. destruct v; cbn in *; try discriminate;
      injection Hi as Hi; match type of Hi with _ = [] => idtac | [] = _ => symmetry in Hi | ?x = ?y => idtac end;
      try apply map_eq_nil in Hi; subst; discriminate. }
  destruct v; cbv beta iota in H;
    try (match type of H with (if truthy ?w then _ else _) = _ => destruct (truthy w) eqn:Ht end; [|discriminate];
         destruct (py_iter _) as [l'|] eqn:Hi; [|discriminate];
         apply bind_Ok in H; destruct H as [names [He H]]; injection H as ->; exact (Hb l' eq_refl eq_refl He)).
  injection H as H. revert H. apply split_space_nonempty.
Qed.

Lemma key_order_constructed v o : key_order_arg v = Ok o -> inhabited_list o.
Proof.
  unfold inhabited_list. intros H ->. unfold key_order_arg in H. destruct v; cbv beta iota in H;
    try (match type of H with (if truthy ?w then _ else _) = _ => destruct (truthy w) end; discriminate).
  - destruct s; [discriminate|]. injection H as H. revert H. apply split_space_nonempty.
  - destruct l as [|a l]; [destruct (truthy _); discriminate|].
    apply bind_Ok in H. destruct H as [names [He H]]. injection H as ->. apply each_empty in He. discriminate.
Qed.

Lemma others_In drop kw kv : In kv (others drop kw) -> In kv kw.
Proof. unfold others. intros H. apply filter_In in H. apply H. Qed.

Lemma others_drops drop kw key v : In (key, v) (others drop kw) -> smem key drop = false.
Proof. unfold others. intros H. apply filter_In in H. destruct H as [_ H]. cbn in H. destruct (smem key drop); [discriminate|reflexivity]. Qed.

Lemma base_arguments E n c kw : arguments E n c kw ->
  forall key v, In (key, v) (others (class_args c) kw) -> key = $"default" \/ fieldless v = true.
Proof.
  intros H key v Hi. pose proof (others_drops _ _ _ _ Hi) as Hd. apply others_In in Hi. specialize (H _ _ Hi).
  destruct (smem key (slots c)) eqn:Hs; [|exact H]. exfalso. apply smem_In in Hs.
  assert (Hc : In key (class_args c)) by (destruct c; cbn in *; intuition (subst; auto 12)).
  apply smem_In in Hc. congruence.
Qed.

Lemma nonempty_arguments E n c kw : arguments E n c kw ->
  forall key v, In (key, v) (nonempty_args kw ++ others (class_args c) kw) -> key = $"default" \/ fieldless v = true.
Proof.
  intros H key v Hi. apply in_app_or in Hi. destruct Hi as [Hi|Hi]; [|apply (base_arguments E n c kw H _ _ Hi)].
  unfold nonempty_args in Hi. destruct (flag $"nonempty" kw); [|contradiction].
  destruct Hi as [[= <- <-]|[[= <- <-]|[]]]; right; reflexivity.
Qed.

Lemma set_default_sound d p : constructed_params p -> constructed_params (set_default d p).
Proof. exact (fun H => H). Qed.

Lemma variants_sound E n q kd name items vs :
  sound E (Fld q kd) -> within (S n) (Fld q kd) -> p_name q = Some name ->
  Forall (fun kv => entry_ok E n kv /\ fst kv <> VStr $"*") items ->
  each (fun kv => do fields <- structure_items (snd kv);
                  do c <- clone E (S n) (Fld q kd) [($"constant", fst kv)];
                  Ok (fst kv, aset name c fields)) items = Ok vs ->
  Forall (fun vd => fst vd <> VStr $"*" /\ fieldless (fst vd) = true
                    /\ Forall has_name (snd vd)
                    /\ exists c, aget name (snd vd) = Some c
                         /\ alike c (Fld (with_constant q (fst vd)) kd)) vs
  /\ forall g, In g (flat_map (fun vd => map snd (snd vd)) vs) -> sound E g /\ within (S n) g.
Proof.
  intros Hq Hqw Hn HF He. apply each_ok in He. revert HF.
  induction He as [|[a x] vd items vs Hab Hl IH]; intros HF; [split; [constructor|intros g []]|].
  inversion HF as [|? ? [[Ha Hx] Hstar] HF']; subst. destruct (IH HF') as [IH1 IH2]. clear IH. cbn [fst snd] in *.
  apply bind_Ok in Hab. destruct Hab as [fields [Hfs Hab]]. apply bind_Ok in Hab. destruct Hab as [c [Hc Hab]]. injection Hab as <-.
  pose proof (structure_items_made E n x fields Hx Hfs) as Hm.
  destruct (clone_ok E (S n) q kd [($"constant", a)] Hqw Hq) as [c' [Hc' [Hal Hcs]]].
  { constructor; [|constructor]. left. unfold common_parameter. cbn [fst snd]. destruct a; cbn; auto 12. }
  rewrite Hc in Hc'. injection Hc' as <-. rewrite replaced_constant in Hal.
  assert (Hcw : within (S n) c) by (apply (within_alike _ _ _ Hal); destruct kd; exact Hqw).
  assert (Hrk : rekind [($"constant", a)] kd = kd) by (destruct kd; reflexivity). rewrite Hrk in Hal.
  split.
  - constructor; [|exact IH1]. cbn [fst snd]. split; [exact Hstar|]. split; [exact Ha|]. split.
    + apply alike_inv in Hal. destruct Hal as [p' [k' [-> [Hb _]]]]. apply bare_name in Hb. destruct Hb as [Hb _].
      rewrite Forall_forall. intros [s g] Hi.
      assert (Hg : (s, g) = (name, Fld p' k') \/ In (s, g) fields \/ s = name /\ g = Fld p' k').
      { clear -Hi. induction fields as [|[s' f'] fields IH]; cbn in Hi; [destruct Hi as [Hi|[]]; auto|].
        destruct (str_eqb_spec name s') as [-> |Hne]; destruct Hi as [Hi|Hi]; auto.
        all: try (right; left; right; exact Hi); try (right; left; left; exact Hi).
        destruct (IH Hi) as [?|[?|?]]; auto. right; left; right; assumption. }
      destruct Hg as [[= -> ->]|[Hg|[-> ->]]]; try (unfold has_name; cbn [fst snd]; rewrite Hb; cbn [p_name with_constant]; rewrite Hn; split; [discriminate|intros [= ->]; reflexivity]).
      rewrite Forall_forall in Hm. apply (Hm _ Hg).
    + exists c. split; [apply aset_get_same|exact Hal].
  - cbn [flat_map fst snd]. intros g Hg. apply in_app_or in Hg. destruct Hg as [Hg|Hg]; [|apply IH2, Hg].
    apply aset_In in Hg. destruct Hg as [-> |Hg]; [auto|]. apply in_map_iff in Hg. destruct Hg as [[s f] [<- Hi]].
    rewrite Forall_forall in Hm. destruct (Hm _ Hi) as [_ [H1 H2]]. split; [exact H1|]. apply (within_mono n); [lia|exact H2].
Qed.

(** @prop C52 What a constructor makes of sound parts is sound again: lengths are not negative,
    nothing is nested in the constant, fields of a structure have names, a polymorphic structure
    has a required discriminator which every variant contains with its identity as constant.
    This is what the claims about clones (C45) assume of a field.  The bounds of DateTime fields
    are left out. *)
Lemma constructors_sound :
  forall E n c kw f,
    init E (clone E (S n)) c kw = Ok f -> arguments E n c kw ->
    (forall items, as_dict (arg $"structure" kw) = Some items -> NoDup (map fst items)) ->
    (c = CDateTime -> arg $"minimum" kw = VNone /\ arg $"maximum" kw = VNone) ->
    sound E f /\ within (S (S n)) f.
Proof.
  intros E n c kw f H Ha Hnd Hdt.
  assert (Hb := base_arguments E n c kw Ha). assert (Hne := nonempty_arguments E n c kw Ha).
  assert (Hm : forall key g, smem key (slots c) = true -> field_arg (arg key kw) = Ok g -> sound E g /\ within (S n) g).
  { intros key g Hs Hg. assert (Hx : made_of E n (arg key kw)) by (apply (arg_made E n c kw key Ha Hs); destruct (arg key kw); discriminate).
    destruct (arg key kw); try discriminate. injection Hg as <-. split; [apply Hx|]. apply (within_mono n); [lia|apply Hx]. }
  assert (Hml : forall key l, smem key (slots c) = true -> fields_arg (arg key kw) = Ok l ->
            l <> [] /\ forall g, In g l -> sound E g /\ within (S n) g).
  { intros key l Hs Hl. assert (Hx : made_of E n (arg key kw)) by (apply (arg_made E n c kw key Ha Hs); destruct (arg key kw); discriminate).
    assert (HF : exists x xs, each field_arg (x :: xs) = Ok l /\ Forall (made_of E n) (x :: xs)).
    { destruct (arg key kw); try discriminate; destruct l0 as [|x xs]; try discriminate; exists x, xs;
        (split; [exact Hl|]); [apply made_of_list|apply made_of_tuple]; exact Hx. }
    destruct HF as [x [xs [He HF]]]. pose proof (each_field_made E n _ _ HF He) as Hg. split.
    - intros ->. apply each_empty in He. discriminate.
    - intros g Hi. rewrite Forall_forall in Hg. destruct (Hg g Hi). split; [assumption|]. apply (within_mono n); [lia|assumption]. }
  assert (Hgoal : forall p k, f = Fld p k -> constructed_params p -> constructed_kind E k ->
            (forall g, In g (subfields k) -> sound E g /\ within (S n) g) -> sound E f /\ within (S (S n)) f).
  { intros p k -> Hp Hk Hsub. split; [apply sound_Fld; split; [exact Hp|]; split; [exact Hk|]; intros g Hg; apply Hsub, Hg|].
    intros g Hg. apply Hsub, Hg. }
  destruct c; cbn [init] in H; cbv zeta in H;
    try (match type of H with (if ?b then _ else _) = _ => destruct b eqn:Hme; [discriminate|] end);
    try (apply bind_Ok in H; destruct H as [p [Hp H]];
         apply init_params_sound in Hp; [|first [exact Hb|exact Hne]]);
    repeat (apply bind_Ok in H; let x := fresh "x" in let Hx := fresh "Hx" in destruct H as [x [Hx H]]);
    try (injection H as H; symmetry in H; refine (Hgoal _ _ H Hp _ _)); try exact I; try solve [intros g []].
  - split; [apply (length_arg_natural _ _ Hx)|apply (length_arg_natural _ _ Hx0)].
  - destruct (Hdt eq_refl) as [H1 H2]. rewrite H2 in Hx. rewrite H1 in Hx0. injection Hx as <-. injection Hx0 as <-. split; exact I.
  - apply (valid_fields_constructed _ _ Hx).
  - split; [apply (length_arg_natural _ _ Hx)|]. split; [apply (length_arg_natural _ _ Hx0)|].
    intros [H1 H2]. rewrite H1, H2 in Hme. discriminate.
  - pose proof (arg_fieldless E n CEnumeration kw $"enumeration" Ha eq_refl ltac:(discriminate)) as Hf1.
    pose proof (arg_fieldless E n CEnumeration kw $"ignored_values" Ha eq_refl ltac:(discriminate)) as Hf2. split.
    + destruct (arg $"enumeration" kw); cbn in Hx; try discriminate.
      * injection Hx as <-. apply values_ok_strs.
      * apply (natives_ok _ _ Hx Hf1).
      * apply (natives_ok _ _ Hx Hf1).
    + intros i ->. destruct (arg $"ignored_values" kw); cbn in Hx0; try discriminate.
      * injection Hx0 as <-. apply values_ok_strs.
      * apply bind_Ok in Hx0. destruct Hx0 as [l' [Hl Hx0]]. injection Hx0 as <-. apply (natives_ok _ _ Hl Hf2).
  - intros l ->. pose proof (arg_fieldless E n CMap kw $"required_keys" Ha eq_refl ltac:(discriminate)) as Hf1.
    destruct (arg $"required_keys" kw); cbn in Hx1; try discriminate; injection Hx1 as <-; try exact Hf1. apply fieldless_strs.
  - intros g Hg. assert (Hk : forall kf, x0 = Some kf -> sound E kf /\ within (S n) kf).
    { intros kf ->. apply (Hm $"key" kf eq_refl). destruct (arg $"key" kw); try discriminate. cbn in *. destruct f0; [discriminate|].
      injection Hx0 as <-. reflexivity. }
    destruct x0 as [kf|]; cbn in Hg; [destruct Hg as [<-|[<-|[]]]|destruct Hg as [<-|[]]].
    + apply (Hm $"value" _ eq_refl Hx).
    + apply Hk. reflexivity.
    + apply (Hm $"value" _ eq_refl Hx).
  - split; [apply (length_arg_natural _ _ Hx0)|apply (length_arg_natural _ _ Hx1)].
  - intros g Hg. destruct Hg as [<-|[]]. apply (Hm $"item" _ eq_refl Hx).
  - unfold init_structure in H. cbv zeta in H.
    destruct (as_dict (arg $"structure" kw)) as [items0|] eqn:Hd; [|discriminate].
    assert (Hst : made_of E n (arg $"structure" kw)) by (apply (arg_made E n CStructure kw $"structure" Ha eq_refl); intros Hn; rewrite Hn in Hd; discriminate).
    pose proof (made_of_dict E n _ _ Hst Hd) as HF. destruct (truthy (arg $"polymorphic_on" kw)) eqn:Ht.
    + apply bind_Ok in H. destruct H as [items [Hit H]]. apply bind_Ok in H. destruct H as [on0 [Hon0 H]].
      apply bind_Ok in H. destruct H as [on [Hon H]]. apply bind_Ok in H. destruct H as [order [Ho H]].
      apply bind_Ok in H. destruct H as [p [Hp H]]. apply bind_Ok in H. destruct H as [name [Hname H]].
      apply bind_Ok in H. destruct H as [vs [Hvs H]]. apply bind_Ok in H. destruct H as [dflt [_ H]].
      injection H as H. symmetry in H. apply init_params_sound in Hp; [|exact Hb].
      assert (H0 : sound E on0 /\ within (S n) on0).
      { destruct (arg $"polymorphic_on" kw) eqn:Harg; try discriminate.
        - apply bind_Ok in Hon0. destruct Hon0 as [keys [_ Hon0]]. injection Hon0 as <-. apply discriminator_sound.
        - apply (Hm $"polymorphic_on" on0 eq_refl). rewrite Harg. destruct f0; [discriminate|]. injection Hon0 as <-. reflexivity. }
      destruct on0 as [i|p0 k0]; [discriminate|].
      assert (H1 : exists q kd, on = Fld q kd /\ p_required q = true /\ sound E on /\ within (S n) on).
      { destruct (p_required p0) eqn:Hr; [injection Hon as <-; eauto 6|].
        destruct (clone_ok E (S n) p0 k0 [($"required", VBool true)] (proj2 H0) (proj1 H0)) as [c' [Hc' [Hal Hcs]]].
        { constructor; [|constructor]. left. cbn. auto. }
        rewrite Hon in Hc'. injection Hc' as <-.
        assert (Hw : within (S n) on) by (apply (within_alike _ _ _ Hal); destruct k0; apply H0).
        apply alike_inv in Hal. destruct Hal as [p' [k' [-> [Hbare _]]]]. exists p', k'. split; [reflexivity|].
        split; [|split; [exact Hcs|exact Hw]]. apply bare_name in Hbare. destruct Hbare as [_ ->]. reflexivity. }
      destruct H1 as [q [kd [-> [Hr [Hs Hw]]]]]. destruct (p_name q) as [nm|] eqn:Hq; [|discriminate]. injection Hname as ->.
      destruct (variants_sound E n q kd name items vs Hs Hw Hq) as [HV HG];
        [apply (merge_common_ok E n items0 items Hit (Hnd items0 eq_refl) HF)|exact Hvs|].
      refine (Hgoal _ _ H (set_default_sound _ _ Hp) _ _).
      * split; [apply (key_order_constructed _ _ Ho)|]. exists q, kd, name. auto.
      * cbn [subfields sdef_fields]. intros g [<-|Hg]; [auto|apply HG, Hg].
    + apply bind_Ok in H. destruct H as [order [Ho H]].
      apply bind_Ok in H. destruct H as [p [Hp H]]. apply bind_Ok in H. destruct H as [fields [Hfs H]].
      apply bind_Ok in H. destruct H as [dflt [_ H]].
      injection H as H. symmetry in H. apply init_params_sound in Hp; [|exact Hb].
      pose proof (structure_items_made E n _ _ Hst Hfs) as Hall.
      refine (Hgoal _ _ H (set_default_sound _ _ Hp) _ _).
      * split; [apply (key_order_constructed _ _ Ho)|]. rewrite Forall_forall in *. intros kf Hi. apply (Hall _ Hi).
      * cbn [subfields sdef_fields]. intros g Hg. apply in_map_iff in Hg. destruct Hg as [kf [<- Hi]].
        rewrite Forall_forall in Hall. destruct (Hall _ Hi) as [_ [H1 H2]]. split; [exact H1|apply (within_mono n); [lia|exact H2]].
  - apply (valid_surrogates_constructed _ _ Hx).
  - split; [apply (length_arg_natural _ _ Hx0)|apply (length_arg_natural _ _ Hx1)].
  - apply (Hml $"values" _ eq_refl Hx).
  - apply (Hml $"values" _ eq_refl Hx).
  - apply (Hml $"fields" _ eq_refl Hx).
  - apply (Hml $"fields" _ eq_refl Hx).
Qed.
(** @example
Example C52_sound_example :
  let kw := [($"structure", VDict false [(VStr $"a", VDict false [(VStr $"x", VField (Fld p0 (KInteger None None)))]);
                                   (VStr $"b", VDict false [(VStr $"x", VField (Fld p0 KBoolean))])]);
             ($"polymorphic_on", VStr $"type")] in
  exists f, init env0 (clone env0 2) CStructure kw = Ok f /\ sound env0 f.
Proof.
  intros kw. destruct (init env0 (clone env0 2) CStructure kw) as [f|e] eqn:Hf; [|vm_compute in Hf; discriminate].
  exists f. split; [reflexivity|]. refine (proj1 (constructors_sound env0 1 CStructure kw f Hf _ _ _)); clear f Hf.
  - assert (Hs : forall k, k = KInteger None None \/ k = KBoolean -> sound env0 (Fld p0 k) /\ within 1 (Fld p0 k)).
    { intros k [-> | ->]; split; try (intros g []); split; constructor; try (repeat split; exact I); intros g []. }
    intros key v [[= <- <-]|[[= <- <-]|[]]]; cbn [slots smem made_of].
    + split; [reflexivity|]. split; [split; [reflexivity|]; split; [apply Hs; auto|exact I]|].
      split; [reflexivity|]. split; [split; [reflexivity|]; split; [apply Hs; auto|exact I]|exact I].
    + exact I.
  - intros items [= <-]. repeat constructor; cbn; intuition discriminate.
  - discriminate.
Qed.
@end *)

(** ** C45 *)

(** @prop C45 Cloning succeeds for every field whose parts are all there (no placeholders) and
    gives a field that validates exactly like the original with the given parameters replaced.
    Fuel bounds the nesting; some amount always suffices.  Missing: [sound] requires that the
    bounds of DateTime fields survive a conversion to their own zone, and the replacement of
    parameters that are fields or containers of fields is not covered. *)
Lemma clone_replaces_partial :
  forall E p k kw,
    sound E (Fld p k) -> Forall (parameter k) kw ->
    exists N, forall n, (N <= n)%nat ->
      exists g, clone E n (Fld p k) kw = Ok g
        /\ alike g (Fld (replaced kw p) (rekind kw k))
        /\ forall desc recon m partial ph ser anc v,
             process_gen E desc recon m g partial ph ser anc v
             = process_gen E desc recon m (Fld (replaced kw p) (rekind kw k)) partial ph ser anc v.
Proof.
  intros E p k kw Hs Hk. destruct (within_exists (Fld p k)) as [N HN]. exists N. intros n Hn.
  destruct (clone_ok E n p k kw) as [g [Hg [Ha _]]]; [apply (within_mono N); assumption|assumption|assumption|].
  exists g. split; [exact Hg|]. split; [exact Ha|]. intros. apply alike_process, Ha.
Qed.
(** @example
Example C45_example :
  let s := KStructure (SPlain [($"a", Fld (p_named $"a") (KInteger (Some 1%Z) None))]) true None in
  exists N, forall n, (N <= n)%nat -> exists g, clone env0 n (Fld p0 s) [($"nonnull", VBool true); ($"strict", VBool false)] = Ok g
    /\ process_gen env0 nodesc norecon 5 g false Inbound false [] (VDict false [(VStr $"a", VInt 3); (VStr $"b", VInt 4)])
       = Ok (VDict false [(VStr $"a", VInt 3)])
    /\ process_gen env0 nodesc norecon 5 g false Inbound false [] VNone = fails [$"(structure)"] $"nonnull".
Proof.
  cbv zeta. destruct (clone_replaces_partial env0 p0 (KStructure (SPlain [($"a", Fld (p_named $"a") (KInteger (Some 1%Z) None))]) true None)
              [($"nonnull", VBool true); ($"strict", VBool false)]) as [N HN].
  - split; constructor; cbn [subfields sdef_fields map snd].
    + intros g [<-|[]]. constructor. intros h [].
    + split; [repeat split|]. split; [discriminate|]. constructor; [|constructor]. split; [discriminate|]. discriminate.
    + intros g [<-|[]]. constructor; [|intros h []]. split; [repeat split|exact I].
  - constructor; [left; cbn; auto|]. constructor; [right; cbn; split; [reflexivity|eauto]|constructor].
  - exists N. intros n Hn. destruct (HN n Hn) as [g [Hg [_ Hp]]]. exists g. split; [exact Hg|]. rewrite !Hp. split; vm_compute; reflexivity.
Qed.
@end *)

(** @prop C45 The full claim fails for a bound that is a local wall time skipped by the change to
    summer time: the bound is converted once more when it is cloned, and the clone accepts a value
    the original rejects. *)
Lemma clone_refuted :
  exists E f g v,
    clone E 1 f [] = Ok g
    /\ process_gen E nodesc norecon 1 f false Inbound false [] v = fails [$"(datetime)"] $"minimum"
    /\ process_gen E nodesc norecon 1 g false Inbound false [] v = Ok v.
Proof.
  pose (L := {| lt_std := 3600; lt_dst := 7200;
                lt_isdst := fun s => (dt_secs (DateTime (Date 2020 3 29) (Tod 2 0 0 0) None) <=? s)%Z |}).
  pose (at_ h m := DateTime (Date 2020 3 29) (Tod h m 0 0) (Some TzLocal)).
  exists (with_local env0 L), (Fld p0 (KDateTime (Some (at_ 2 30)%Z) None false)).
  eexists. exists (VDateTime (at_ 2 0)%Z). split; [vm_compute; reflexivity|]. split; vm_compute; reflexivity.
Qed.

(** @prop C45 Nor can a field be cloned that contains a placeholder which is not resolved: the copy
    recurses until the interpreter gives up, whatever the depth allowed. *)
Lemma clone_placeholder_refuted :
  exists f, forall E n, e_undef E 0 = None -> clone E n f [] = py RecursionError.
Proof.
  exists (Fld p0 (KSequence (FUndef 0) None None false)). intros E [|n] H; [reflexivity|].
  cbn [clone]. unfold copy_attrs. cbn. rewrite H. reflexivity.
Qed.

(** ** C44 *)

Fixpoint entries (l : list (val * val)) : list (val * val) :=
  match l with
  | [] => []
  | (a, x) :: l' => if is_fieldtype a then entries l' else (a, untyped x) :: entries l'
  end.

Section Run.
Context (E : env) (n : nat).
Fixpoint crun (skip : bool) (l : list (val * val)) : list (val * val) * res (list (val * val)) :=
  match l with
  | [] => ([], Ok [])
  | (a, x) :: l1 =>
      if skip && is_fieldtype a
      then crun skip l1
      else
        match construct_parameter E n x with
        | (x', Raise e) => ((a, x') :: l1, Raise e)
        | (x', Ok y) =>
            match crun skip l1 with
            | (l2, Ok ys) => ((a, x') :: l2, Ok ((a, y) :: ys))
            | (l2, Raise e) => ((a, x') :: l2, Raise e)
            end
        end
  end.
Fixpoint clist (l : list val) : list val * res (list val) :=
  match l with
  | [] => ([], Ok [])
  | x :: l1 =>
      match construct_parameter E n x with
      | (x', Raise e) => (x' :: l1, Raise e)
      | (x', Ok y) =>
          match clist l1 with
          | (l2, Ok ys) => (x' :: l2, Ok (y :: ys))
          | (l2, Raise e) => (x' :: l2, Raise e)
          end
      end
  end.

Definition only_types (v : val) : Prop :=
  untyped (fst (construct_parameter E n v)) = untyped v
  /\ forall y, snd (construct_parameter E n v) = Ok y -> fst (construct_parameter E n v) = untyped v.

Lemma clist_types l : (forall x, In x l -> only_types x) ->
  map untyped (fst (clist l)) = map untyped l /\ forall ys, snd (clist l) = Ok ys -> fst (clist l) = map untyped l.
Proof.
  induction l as [|x l IH]; intros H; [split; reflexivity|]. cbn [clist].
  destruct (H x (or_introl eq_refl)) as [H1 H2]. destruct (IH (fun y Hy => H y (or_intror Hy))) as [H3 H4].
  destruct (construct_parameter E n x) as [x' [y|e]]; cbn [fst snd] in *.
  - destruct (clist l) as [l2 [ys|e]]; cbn [fst snd map] in *.
    + split; [congruence|]. intros zs _. f_equal; [apply (H2 y eq_refl)|apply (H4 ys eq_refl)].
    + split; [congruence|discriminate].
  - split; [cbn [map]; congruence|discriminate].
Qed.

Lemma crun_types skip l : (forall x, In x (map snd l) -> only_types x) ->
  (skip = true \/ sget $"fieldtype" l = None) ->
  entries (fst (crun skip l)) = entries l /\ forall ys, snd (crun skip l) = Ok ys -> fst (crun skip l) = entries l.
Proof.
  induction l as [|[a x] l IH]; intros H Hs; [split; reflexivity|]. cbn [crun entries].
  assert (Ha : is_fieldtype a = true -> skip = true).
  { intros Ha. destruct Hs as [Hs|Hs]; [exact Hs|]. destruct a; try discriminate. cbn [is_fieldtype] in Ha. cbn [sget] in Hs. rewrite Ha in Hs. discriminate. }
  assert (Hs' : skip = true \/ sget $"fieldtype" l = None).
  { destruct Hs as [Hs|Hs]; [auto|]. right. destruct a; try exact Hs. cbn [sget] in Hs. destruct (str_eqb $"fieldtype" s); [discriminate|exact Hs]. }
  destruct (H x (or_introl eq_refl)) as [H1 H2]. destruct (IH (fun y Hy => H y (or_intror Hy)) Hs') as [H3 H4].
  destruct (is_fieldtype a) eqn:Hf.
  - rewrite (Ha eq_refl) in *. cbn [andb]. split; assumption.
  - rewrite andb_false_r. destruct (construct_parameter E n x) as [x' [y|e]]; cbn [fst snd] in *.
    + destruct (crun skip l) as [l2 [ys|e]]; cbn [fst snd] in *; cbn [entries]; rewrite Hf.
      * split; [congruence|]. intros zs _. rewrite (H2 y eq_refl). rewrite (H4 ys eq_refl). reflexivity.
      * split; [congruence|discriminate].
    + cbn [entries]. rewrite Hf. split; [congruence|discriminate].
Qed.

Lemma entries_sdel l : entries (sdel $"fieldtype" l) = entries l.
Proof.
  induction l as [|[a x] l IH]; [reflexivity|]. destruct a; cbn [sdel entries is_fieldtype]; try (rewrite IH; reflexivity).
  destruct (str_eqb $"fieldtype" s) eqn:Hs; [reflexivity|]. cbn [entries is_fieldtype]. rewrite Hs, IH. reflexivity.
Qed.

Lemma only_types_all v : only_types v.
Proof.
  induction v as [v IH] using val_ind'.
  assert (Hd : forall l (rebuild : list (val * val) -> val), (forall x, In x (map snd l) -> only_types x) ->
    (forall l', untyped (rebuild l') = rebuild (entries l')) ->
    let out := match sget $"fieldtype" l with
      | None => match crun false l with
                | (l', Ok ys) => (rebuild l', Ok (VDict false ys))
                | (l', Raise e) => (rebuild l', Raise e)
                end
      | Some t =>
          match class_named t with
          | Raise e => (rebuild (sdel $"fieldtype" l), Raise e)
          | Ok c =>
              match as_kwargs (sdel $"fieldtype" l) with
              | Raise e => (rebuild (sdel $"fieldtype" l), Raise e)
              | Ok _ =>
                  match crun true l with
                  | (l', Raise e) => (rebuild l', Raise e)
                  | (l', Ok ys) =>
                      (rebuild l', do kw <- as_kwargs ys; do f <- init E (clone E n) c kw; Ok (VField f))
                  end
              end
          end
      end in untyped (fst out) = untyped (rebuild l) /\ forall y, snd out = Ok y -> fst out = untyped (rebuild l)).
  { intros l rebuild H Hr. cbv zeta. rewrite !Hr. destruct (sget $"fieldtype" l) as [t|] eqn:Hg.
    - destruct (crun_types true l H (or_introl eq_refl)) as [H1 H2].
      destruct (class_named t) as [c|e]; cbn [fst snd]; [|rewrite Hr, entries_sdel; split; [reflexivity|intros ? Hy; discriminate Hy]].
      destruct (as_kwargs _) as [kw|e]; cbn [fst snd]; [|rewrite Hr, entries_sdel; split; [reflexivity|intros ? Hy; discriminate Hy]].
      destruct (crun true l) as [l' [ys|e]]; cbn [fst snd] in *.
      + rewrite Hr, H1. split; [reflexivity|]. intros y _. rewrite (H2 ys eq_refl). reflexivity.
      + rewrite Hr, H1. split; [reflexivity|intros ? Hy; discriminate Hy].
    - destruct (crun_types false l H (or_intror Hg)) as [H1 H2].
      destruct (crun false l) as [l' [ys|e]]; cbn [fst snd] in *.
      + rewrite Hr, H1. split; [reflexivity|]. intros y _. rewrite (H2 ys eq_refl). reflexivity.
      + rewrite Hr, H1. split; [reflexivity|intros ? Hy; discriminate Hy]. }
  assert (Hsub : forall l, (forall w, In w (flat_map (fun kv : val * val => [fst kv; snd kv]) l) -> only_types w) ->
            forall x, In x (map snd l) -> only_types x).
  { intros l H x Hx. apply H. apply in_map_iff in Hx. destruct Hx as [kv [<- Hi]]. apply in_flat_map. exists kv. cbn. auto. }
  destruct v as [ | | | | | | | | | |l|l|o l|i l|i s w l|e|f]; try (split; [reflexivity|reflexivity]); cbn [subvals] in IH.
  - destruct (clist_types l IH) as [H1 H2]. unfold only_types. cbn [construct_parameter]. fold clist. fold untyped.
    change (untyped (VList l)) with (VList (map untyped l)). destruct (clist l) as [l' [ys|e]]; cbn [fst snd] in *.
    + split; [cbn; rewrite H1; reflexivity|]. intros y _. rewrite (H2 ys eq_refl). reflexivity.
    + split; [cbn; rewrite H1; reflexivity|discriminate].
  - destruct (clist_types l IH) as [H1 H2]. unfold only_types. cbn [construct_parameter]. fold clist. fold untyped.
    change (untyped (VTuple l)) with (VTuple (map untyped l)). destruct (clist l) as [l' [ys|e]]; cbn [fst snd] in *.
    + split; [cbn; rewrite H1; reflexivity|]. intros y _. rewrite (H2 ys eq_refl). reflexivity.
    + split; [cbn; rewrite H1; reflexivity|discriminate].
  - apply (Hd l (VDict o) (Hsub l IH)). reflexivity.
  - apply (Hd l (VSurr i s w) (Hsub l IH)). reflexivity.
Qed.
End Run.

(** @prop C44 The claim fails: reconstructing a field removes the entry ['fieldtype'] of the
    specification, so the same specification cannot be used again. *)
Lemma reconstruct_refuted :
  exists E spec f,
    snd (reconstruct_st E 1 spec) = Ok f
    /\ fst (reconstruct_st E 1 spec) <> spec
    /\ snd (reconstruct_st E 1 (fst (reconstruct_st E 1 spec))) = py ValueError.
Proof.
  exists env0, (VDict false [(VStr $"fieldtype", VStr $"integer"); (VStr $"minimum", VInt 1)]). eexists.
  split; [reflexivity|]. split; [discriminate|reflexivity].
Qed.

(** @prop C44 What does hold: nothing but entries ['fieldtype'] is ever removed from the
    specification, at any depth and whether or not the reconstruction succeeds.  When a
    reconstruction from a dict succeeds, all of them are gone and using the specification again
    raises ValueError.  Missing: the specification is not unchanged. *)
Lemma reconstruct_effect_partial :
  forall E n spec,
    untyped (fst (reconstruct_st E n spec)) = untyped spec
    /\ forall o items f,
         spec = VDict o items -> snd (reconstruct_st E n spec) = Ok f ->
         fst (reconstruct_st E n spec) = untyped spec
         /\ forall m, snd (reconstruct_st E m (untyped spec)) = py ValueError.
Proof.
  intros E n spec. split.
  - destruct spec as [ | | | | | | | | | |l|l|o l|i l|i s w l|e|f]; try reflexivity; unfold reconstruct_st.
    + match goal with |- context [construct_parameter E n ?v] => destruct (only_types_all E n v) as [H _] end.
      destruct (sget $"fieldtype" l); [|reflexivity]. destruct (construct_parameter E n _) as [s' [[]|]]; exact H.
    + match goal with |- context [construct_parameter E n ?v] => destruct (only_types_all E n v) as [H _] end.
      destruct (sget $"fieldtype" l); [|reflexivity]. destruct (construct_parameter E n _) as [s' [[]|]]; exact H.
    + destruct f; reflexivity.
  - intros o items f -> H. split.
    + unfold reconstruct_st in *. destruct (only_types_all E n (VDict o items)) as [_ H2].
      destruct (sget $"fieldtype" items); [|discriminate].
      destruct (construct_parameter E n _) as [s' [[]|]]; try discriminate; exact (H2 _ eq_refl).
    + intros m. change (untyped (VDict o items)) with (VDict o (entries items)). unfold reconstruct_st.
      assert (Hn : sget $"fieldtype" (entries items) = None).
      { clear. induction items as [|[a x] l IH]; [reflexivity|]. cbn [entries]. destruct (is_fieldtype a) eqn:Ha; [exact IH|].
        destruct a; try exact IH. cbn [is_fieldtype] in Ha. cbn [sget]. rewrite Ha. exact IH. }
      rewrite Hn. reflexivity.
Qed.
(** @example
Example C44_example :
  let spec := VDict false [(VStr $"fieldtype", VStr $"sequence");
                           (VStr $"item", VDict false [(VStr $"fieldtype", VStr $"integer"); (VStr $"minimum", VInt 1)])] in
  exists f, snd (reconstruct_st env0 2 spec) = Ok f
    /\ fst (reconstruct_st env0 2 spec) = VDict false [(VStr $"item", VDict false [(VStr $"minimum", VInt 1)])]
    /\ snd (reconstruct_st env0 2 (untyped spec)) = py ValueError.
Proof.
  intros spec. destruct (snd (reconstruct_st env0 2 spec)) as [f|e] eqn:Hf; [|vm_compute in Hf; discriminate].
  exists f. split; [reflexivity|]. destruct (proj2 (reconstruct_effect_partial env0 2 spec) _ _ _ eq_refl Hf) as [H1 H2].
  split; [exact H1|apply H2].
Qed.
@end *)
