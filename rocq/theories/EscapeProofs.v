(** * Which exceptions escape from [process] (C36). *)
(* @imports Spec Demo EscSpec *)
From Coq Require Import ZifyBool ZifyN ZifyNat.
From Verif Require Import PyBaseFacts Induct Spec Demo ProcessFacts ScalarProofs StructFacts SeqProofs MapProofs
  StructProofs ConfProofs LocProofs EscSpec.

Lemma is_null_py L p anc v x : is_null L p None anc v <> Raise (XPy x).
Proof. unfold is_null. cbn. destruct (_ || _); [destruct (p_nonnull p)|]; discriminate. Qed.

Lemma veq_r_py L a b x : veq_r L a b = Raise (XPy x) -> x = InvalidOperation /\ is_num a = true /\ is_num b = true.
Proof.
  unfold veq_r, py. destruct (snan_val a && is_num b) eqn:H1; cbn.
  - intros [= <-]. apply andb_prop in H1. destruct H1. split; [reflexivity|]. split; [|assumption].
    destruct a; try discriminate. reflexivity.
  - destruct (snan_val b && is_num a) eqn:H2; [|discriminate].
    intros [= <-]. apply andb_prop in H2. destruct H2. split; [reflexivity|]. split; [assumption|].
    destruct b; try discriminate. reflexivity.
Qed.

Lemma vmem_r_py L v l x : vmem_r L v l = Raise (XPy x) -> x = InvalidOperation /\ exists y, In y l /\ is_num y = true.
Proof.
  induction l as [|y l IH]; cbn; [discriminate|]. intros H. apply bind_Raise in H. destruct H as [H|[b [_ H]]].
  - apply veq_r_py in H. destruct H as [-> [H _]]. split; [reflexivity|]. exists y. auto.
  - destruct b; [discriminate|]. destruct (IH H) as [-> [z [Hz Hn]]]. split; [reflexivity|]. exists z. auto.
Qed.

Ltac no_py H :=
  repeat (first
    [ discriminate H
    | match type of H with context [match ?b with _ => _ end] => destruct b end ]).

Lemma check_bounds_py {A} (lt : A -> A -> bool) anc mn mx y r x : check_bounds lt anc mn mx y r <> Raise (XPy x).
Proof. unfold check_bounds, verr. intros H. no_py H. Qed.
Lemma check_length_py anc mn mx y r x : check_length anc mn mx y r <> Raise (XPy x).
Proof. unfold check_length, verr. intros H. no_py H. Qed.
Lemma or_invalid_py {A} anc (inj : A -> val) o x : or_invalid anc inj o <> Raise (XPy x).
Proof. destruct o; discriminate. Qed.

Lemma unserialize_py {F} E recon (k : kindP val F) anc v x :
  unserialize_value E recon k anc v = Raise (XPy x) ->
  match k with KBinary _ _ => x = BinasciiError | KError => x = TypeError | _ => False end.
Proof.
  intros H. destruct k; cbn [unserialize_value] in H; try discriminate;
    try (apply or_invalid_py in H; exact H).
  - destruct v; try discriminate. destruct (b64_decode b); [discriminate|]. unfold py in H. congruence.
  - destruct v; try discriminate. apply or_invalid_py in H. exact H.
  - destruct v; try discriminate. apply or_invalid_py in H. exact H.
  - destruct (recon v); discriminate.
  - unfold err_unserialize in H. destruct v; try discriminate.
    destruct l as [|es [|s [|y l]]]; try discriminate. destruct (py_iter es); [discriminate|]. congruence.
  - destruct v; try (apply or_invalid_py in H; exact H); discriminate.
  - destruct v; try discriminate. destruct (e_import E s); discriminate.
  - destruct v; try discriminate. apply or_invalid_py in H. exact H.
Qed.

Lemma bounds_some {A} (mn mx : option A) : (mn = None /\ mx = None) \/ (mn <> None \/ mx <> None).
Proof. destruct mn, mx; [right; left|right; left|right; right|left]; (discriminate || auto). Qed.

Lemma check_bounds_r_py {A} (lt : A -> A -> res bool) anc mn mx y r x :
  check_bounds_r lt anc mn mx y r = Raise (XPy x) ->
  exists m, (mn = Some m /\ lt y m = Raise (XPy x)) \/ (mx = Some m /\ lt m y = Raise (XPy x)).
Proof.
  unfold check_bounds_r. intros H. apply bind_Raise in H. destruct H as [H|[b [_ H]]].
  - destruct mn as [m|]; [|discriminate]. eauto.
  - destruct b; [discriminate|]. apply bind_Raise in H. destruct H as [H|[c [_ H]]].
    + destruct mx as [m|]; [|discriminate]. eauto.
    + destruct c; discriminate.
Qed.

Lemma astimezone_tz L dt a z r : astimezone L dt a z = Some r -> dt_tz r = Some z.
Proof.
  unfold astimezone, fromutc. destruct (dt_add dt _) as [u|]; [|discriminate]. cbn zeta.
  destruct (dt_add (with_tz u (Some z)) _) as [w|] eqn:Hw; [|discriminate].
  intros H. apply dt_add_tz in H. apply dt_add_tz in Hw. rewrite H, Hw. reflexivity.
Qed.

Lemma dt_normalize_tz E utc dt d : dt_normalize E utc dt = Ok d -> dt_tz d <> None.
Proof.
  unfold dt_normalize. intros H. destruct (dt_tz dt) as [z|] eqn:Hz.
  - destruct (tz_is z (if utc then TzUTC else TzLocal)).
    + injection H as <-. congruence.
    + destruct (astimezone _ _ _ _) as [r|] eqn:Hr; [|discriminate]. injection H as <-.
      apply astimezone_tz in Hr. congruence.
  - injection H as <-. discriminate.
Qed.

Lemma dt_lt_py L a b x : dt_lt L a b = Raise (XPy x) -> x = TypeError /\ (dt_tz a = None \/ dt_tz b = None).
Proof.
  unfold dt_lt, py. destruct (dt_tz a), (dt_tz b); try destruct (tz_is _ _); intros H; try discriminate;
    injection H as <-; auto.
Qed.

Lemma validate_py {F} E (k : kindP val F) anc v x :
  is_structural k = false -> validate_value E k anc v = Raise (XPy x) ->
  match k with
  | KDate mn mx => (mn <> None \/ mx <> None) /\ x = TypeError
  | KDateTime mn mx _ => x = OverflowError
      \/ (exists m, (mn = Some m \/ mx = Some m) /\ dt_tz m = None) /\ x = TypeError
  | KDecimal mn mx => (mn <> None \/ mx <> None) /\ x = InvalidOperation
  | KEnumeration l _ => (exists y, In y l /\ is_num y = true) /\ x = InvalidOperation
  | KSurrogate valid => (exists t ts, valid = Some (t :: ts)) /\ (x = AttributeError \/ x = KeyError)
  | _ => False
  end.
Proof.
  intros Hs H. destruct k; try discriminate Hs; cbn [validate_value] in H; try discriminate.
  - destruct v; try discriminate. apply check_length_py in H. exact H.
  - destruct v; discriminate.
  - destruct v; try discriminate; [apply check_bounds_py in H; contradiction|].
    destruct mn as [m|], mx as [m'|]; unfold py in H; try discriminate; injection H as <-;
      (split; [|reflexivity]); (left; discriminate) || (right; discriminate).
  - destruct v; try discriminate. apply bind_Raise in H. destruct H as [H|[d [Hd H]]].
    + left. unfold dt_normalize, py in H. destruct (dt_tz dt); [|discriminate].
      destruct (tz_is _ _); [discriminate|]. destruct (astimezone _ _ _ _); [discriminate|]. congruence.
    + right. apply dt_normalize_tz in Hd. apply check_bounds_r_py in H.
      destruct H as [m [[Hm H]|[Hm H]]]; apply dt_lt_py in H; destruct H as [-> [H|H]]; try contradiction;
        (split; [|reflexivity]); exists m; auto.
  - destruct v; try discriminate. apply check_bounds_r_py in H. destruct H as [m [[-> H]|[-> H]]].
    + split; [left; discriminate|]. unfold dec_lt, py in H. destruct d, m; congruence.
    + split; [right; discriminate|]. unfold dec_lt, py in H. destruct d, m; congruence.
  - destruct (as_field v) as [[|? ?]|]; try discriminate. no_py H.
  - destruct v; try discriminate. apply bind_Raise in H. destruct H as [H|[r [_ H]]].
    + apply check_length_py in H. exact H.
    + no_py H.
  - apply bind_Raise in H. destruct H as [H|[b [_ H]]].
    + apply vmem_r_py in H. destruct H. auto.
    + destruct b; discriminate.
  - destruct v; discriminate.
  - destruct v; try discriminate. apply check_bounds_py in H. exact H.
  - destruct v; try discriminate. apply check_bounds_py in H. exact H.
  - destruct v; try discriminate. destruct valid as [[|t ts]|]; try discriminate. unfold py in H.
    split; [eauto|]. destruct (e_identity E impl); [destruct (existsb _ _); [discriminate|]|]; injection H as <-; auto.
  - destruct v; try discriminate. apply bind_Raise in H. destruct H as [H|[r [_ H]]].
    + apply check_length_py in H. exact H.
    + no_py H.
  - destruct v; try discriminate. apply check_bounds_py in H. exact H.
  - destruct v; try discriminate. no_py H.
  - destruct v; try discriminate. no_py H.
Qed.

Lemma serialize_py {F} E desc (k : kindP val F) v x :
  serialize_value E desc k v = Raise (XPy x) ->
  x = OverflowError \/ match k with KDefinition _ => exists f, desc f = Raise (XPy x) | _ => False end.
Proof.
  intros H. destruct k; cbn in H; try discriminate; destruct v; try discriminate; eauto.
  all: try (destruct (e_identify E _); discriminate).
  destruct (tz_is _ _); [discriminate|]. destruct (astimezone _ _ _ _); [discriminate|].
  unfold py in H. left. congruence.
Qed.

(** ** Scalars *)

Lemma scalar_py {F} E desc recon p (k : kindP val F) ph ser anc v x :
  basic k = true ->
  process_scalar E p k (unserialize_value E recon k) (serialize_value E desc k) ph ser anc v = Raise (XPy x) ->
  is_num (p_constant p) = true /\ x = InvalidOperation
  \/ match k with
     | KBinary _ _ => ph = Inbound /\ ser = true /\ x = BinasciiError
     | KDate mn mx => (mn <> None \/ mx <> None) /\ x = TypeError
     | KDateTime mn mx _ => x = OverflowError
         \/ (exists m, (mn = Some m \/ mx = Some m) /\ dt_tz m = None) /\ x = TypeError
     | KDecimal mn mx => (mn <> None \/ mx <> None) /\ x = InvalidOperation
     | KDefinition _ => ph = Outbound /\ ser = true /\ exists f, desc f = Raise (XPy x)
     | KEnumeration l ig =>
         (p_constant p <> VNone \/ p_preprocessor p <> None) /\ x = KeyError
         \/ (exists y, In y (l ++ match ig with Some i => i | None => [] end) /\ is_num y = true)
            /\ x = InvalidOperation
     | KError => ph = Inbound /\ ser = true /\ x = TypeError
     | _ => False
     end.
Proof.
  intros Hb H. unfold process_scalar in H.
  assert (Hst : is_structural k = false) by (destruct k; try discriminate Hb; reflexivity).
  apply bind_Raise in H. destruct H as [H|[nul [_ H]]].
  { right. unfold is_null in H. apply bind_Raise in H. destruct H as [H|[ig [_ H]]].
    - destruct k; try discriminate H. destruct ignored as [ig|]; [|discriminate H].
      cbn [kind_ignored] in H. apply vmem_r_py in H. destruct H as [-> [y [Hy Hn]]]. right.
      split; [|reflexivity]. exists y. split; [apply in_or_app; auto|exact Hn].
    - destruct (_ || _); [destruct (p_nonnull p)|]; discriminate. }
  destruct nul; [discriminate|].
  apply bind_Raise in H. destruct H as [H|[v1 [_ H]]].
  { right. destruct ser, ph; cbn in H; try discriminate. apply unserialize_py in H. destruct k; try contradiction; auto. }
  assert (Hci : forall A, construct_invalid k anc = @Raise A (XPy x) ->
            match k with KEnumeration _ _ => x = KeyError | _ => False end).
  { intros A HA. destruct k; try discriminate HA. cbn in HA. unfold py in HA. congruence. }
  apply bind_Raise in H. destruct H as [H|[v2 [_ H]]].
  { right. destruct (preprocess E p k v1) as [w|y] eqn:Hp; [discriminate|]. apply Hci in H.
    destruct k; try contradiction. left. split; [|exact H]. right. unfold preprocess in Hp.
    destruct (p_preprocessor p); [discriminate|]. discriminate. }
  apply bind_Raise in H. destruct H as [H|[c [Hc H]]].
  { left. destruct (is_none (p_constant p)); [discriminate|]. apply veq_r_py in H. destruct H as [-> [_ H]]. auto. }
  destruct c; cbn [negb] in H.
  2:{ right. apply Hci in H. destruct k; try contradiction. left. split; [|exact H]. left.
      intros Heq. rewrite Heq in Hc. cbn in Hc. discriminate. }
  apply bind_Raise in H. destruct H as [H|[v3 [_ H]]].
  { right. apply validate_py in H; [|exact Hst]. destruct k; try contradiction; auto.
    - destruct H as [[y [Hy Hn]] ->]. right. split; [|reflexivity]. exists y. split; [apply in_or_app; auto|exact Hn].
    - discriminate Hb. }
  destruct ser, ph; cbn [andb phase_eqb] in H; try discriminate.
  destruct (serialize_value E desc k v3) as [w|[e|y]] eqn:Hs; try discriminate.
  right. apply serialize_py in Hs. destruct y; try discriminate; injection H as <-;
    (destruct Hs as [Hs|Hs]; [discriminate|destruct k; try contradiction; auto]).
Qed.

(** ** Containers *)

Section Containers.
Variable E : env.
Let L := e_local E.

(** [Esc x] is allowed for the exceptions of the child. *)
Definition child_py (ph : phase) (ser : bool) (c : child) (Esc : pyexc -> Prop) : Prop :=
  (forall anc v x, snd c ph ser anc v = Raise (XPy x) -> Esc x)
  /\ (fparams E (fst c) = None -> Esc UndefinedFieldError /\ Esc AttributeError).

Lemma wrap_py ph ser c Esc anc v x :
  child_py ph ser c Esc ->
  wrap_undef E (fst c) (snd c ph ser anc v) = Raise (XPy x) -> Esc x.
Proof.
  intros [Hc Hu] H. destruct (snd c ph ser anc v) as [r|[e|y]] eqn:Hs; cbn in H; try discriminate.
  assert (Hy := Hc _ _ _ Hs).
  destruct y; try (injection H as <-; exact Hy).
  unfold undefined in H. destruct (fparams E (fst c)) eqn:Hp.
  - injection H as <-. exact Hy.
  - unfold py in H. injection H as <-. apply Hu. reflexivity.
Qed.

Lemma collect_py ph ser c Esc anc v x :
  child_py ph ser c Esc ->
  collect (wrap_undef E (fst c) (snd c ph ser anc v)) = Raise x -> exists y, x = XPy y /\ Esc y.
Proof.
  intros Hc H. destruct (wrap_undef E (fst c) (snd c ph ser anc v)) as [r|[e|y]] eqn:Hw; cbn in H; try discriminate.
  injection H as <-. exists y. split; [reflexivity|]. eapply wrap_py; eassumption.
Qed.

Lemma seq_loop_py ph ser c Esc anc i l x :
  child_py ph ser c Esc -> seq_loop E c ph ser anc i l = Raise (XPy x) -> Esc x.
Proof.
  intros Hc. revert i. induction l as [|v l IH]; intros i H; cbn [seq_loop] in H; [discriminate|].
  apply bind_Raise in H. destruct H as [H|[y [_ H]]].
  - eapply collect_py in H; [|exact Hc]. destruct H as [y [[= <-] H]]. exact H.
  - apply bind_Raise in H. destruct H as [H|[r [_ H]]]; [eapply IH, H|discriminate].
Qed.

Lemma tuple_loop_py ph ser cs (Esc : pyexc -> Prop) anc i v x :
  Forall (fun c => child_py ph ser c Esc) cs ->
  tuple_loop E cs ph ser anc i v = Raise (XPy x) ->
  Esc x \/ exists j, (i <= j < i + length cs)%nat /\ py_index E v j = Raise (XPy x).
Proof.
  intros Hcs. revert i. induction Hcs as [|c cs Hc Hcs IH]; intros i H; cbn [tuple_loop] in H; [discriminate|].
  apply bind_Raise in H. destruct H as [H|[u [_ H]]].
  - right. exists i. split; [cbn; lia|exact H].
  - apply bind_Raise in H. destruct H as [H|[y [_ H]]].
    + left. eapply collect_py in H; [|exact Hc]. destruct H as [y [[= <-] H]]. exact H.
    + apply bind_Raise in H. destruct H as [H|[r [_ H]]]; [|discriminate].
      destruct (IH _ H) as [|[j [Hj Hi]]]; [auto|]. right. exists j. split; [cbn; lia|exact Hi].
Qed.

Lemma union_loop_py ph ser cs (Esc : pyexc -> Prop) anc v x :
  Forall (fun c => child_py ph ser c Esc) cs ->
  union_loop E cs ph ser anc v = Raise (XPy x) -> Esc x.
Proof.
  intros Hcs. induction Hcs as [|c cs Hc Hcs IH]; intros H; cbn [union_loop] in H; [discriminate|].
  destruct (wrap_undef E (fst c) (snd c ph ser anc v)) as [r|[e|y]] eqn:Hw; try discriminate.
  - destruct (er_cls e); try discriminate. apply IH, H.
  - injection H as <-. eapply wrap_py; eassumption.
Qed.

Lemma map_loop_py ph ser cv ck (Esc : pyexc -> Prop) anc items acc b x :
  child_py ph ser cv Esc ->
  match ck with Some c => child_py ph ser c Esc /\ Esc TypeError | None => True end ->
  map_loop E cv ck ph ser anc items acc b = Raise (XPy x) -> Esc x.
Proof.
  intros Hcv Hck. revert acc b. induction items as [|[name sub] items IH]; intros acc b H; cbn [map_loop] in H; [discriminate|].
  apply bind_Raise in H. destruct H as [H|[name' [Hn H]]].
  - destruct ck as [c|].
    + destruct Hck as [[Hc _] Ht]. apply bind_Raise in H. destruct H as [H|[seg [_ H]]].
      * rewrite key_seg_percent in H. destruct (percent_s E name); [discriminate|]. unfold py in H. injection H as <-. exact Ht.
      * destruct (snd c ph ser _ name) as [r|[e|y]] eqn:Hs; try discriminate. injection H as <-. eapply Hc, Hs.
    + destruct name; discriminate.
  - assert (Hkey : (exists s, percent_s E name' = Some s) /\ hashable name' = true \/ Esc TypeError).
    { destruct ck as [c|]; [right; apply Hck|]. left. destruct name; try discriminate. injection Hn as <-.
      split; [eexists; reflexivity|reflexivity]. }
    rewrite key_seg_percent in H. apply bind_Raise in H. destruct H as [H|[seg [_ H]]].
    + destruct (percent_s E name') eqn:Hs; [discriminate|]. unfold py in H. injection H as <-.
      destruct Hkey as [[[s Hs'] _]|Ht]; [discriminate|exact Ht].
    + apply bind_Raise in H. destruct H as [H|[y [_ H]]].
      * eapply collect_py in H; [|exact Hcv]. destruct H as [y [[= <-] H]]. exact H.
      * destruct (hashable name') eqn:Hh; [eapply IH, H|]. unfold py in H. injection H as <-.
        destruct Hkey as [[_ Hh']|Ht]; [congruence|exact Ht].
Qed.

Lemma map_required_py anc req acc b x :
  map_required E anc req acc b = Raise (XPy x) -> (exists y, In y req /\ hashable y = false) /\ x = TypeError.
Proof.
  revert acc b. induction req as [|y req IH]; intros acc b H; cbn [map_required] in H; [discriminate|].
  destruct (hashable y) eqn:Hy.
  - assert (Hr : (exists y, In y req /\ hashable y = false) /\ x = TypeError)
      by (destruct (dmem _ _ _); eapply IH, H).
    destruct Hr as [[z [Hz Hh]] ->]. split; [exists z; auto|reflexivity]. split; [right; exact Hz|exact Hh].
  - unfold py in H. injection H as <-. split; [exists y; auto|reflexivity]. split; [left; reflexivity|exact Hy].
Qed.

Lemma struct_loop_py ph ser defn (Esc : pyexc -> Prop) items partial anc order names acc b x :
  (forall k c, In (k, c) defn -> child_py ph ser c Esc) ->
  struct_loop E defn items partial ph ser anc order names acc b = Raise (XPy x) ->
  Esc x \/ x = KeyError /\ exists k, In k order /\ ~ In k (map fst defn).
Proof.
  intros Hc. revert names acc b. induction order as [|k order IH]; intros names acc b H; cbn [struct_loop] in H; [discriminate|].
  assert (HIH : forall names acc b, struct_loop E defn items partial ph ser anc order names acc b = Raise (XPy x) ->
            Esc x \/ x = KeyError /\ exists k', In k' (k :: order) /\ ~ In k' (map fst defn)).
  { intros names' acc' b' H'. destruct (IH _ _ _ H') as [|[-> [k' [Hk Hn]]]]; [auto|]. right. split; [reflexivity|].
    exists k'. split; [right; exact Hk|exact Hn]. }
  destruct (aget k defn) as [c|] eqn:Hg.
  - apply aget_In in Hg. destruct (Hc _ _ Hg) as [_ Hu].
    apply bind_Raise in H. destruct H as [H|[dn [_ H]]].
    + left. unfold decide in H. destruct (if kmem k names then sget k items else None); [discriminate|].
      destruct partial; [discriminate|]. destruct (fparams E (fst c)) as [q|].
      * destruct (_ && _); [discriminate|]. destruct (p_required q); discriminate.
      * unfold py in H. injection H as <-. apply Hu. reflexivity.
    + destruct dn as [| |v]; try (eapply HIH, H).
      destruct (fparams E (fst c)) as [q|].
      * destruct (_ && _); [eapply HIH, H|]. apply bind_Raise in H. destruct H as [H|[y [_ H]]]; [|eapply HIH, H].
        left. eapply collect_py in H; [|eapply Hc; exact Hg]. destruct H as [y [[= <-] H]]. exact H.
      * unfold py in H. injection H as <-. left. apply Hu. reflexivity.
  - unfold py in H. injection H as <-. right. split; [reflexivity|]. exists k. split; [left; reflexivity|].
    intros Hin. apply in_map_iff in Hin. destruct Hin as [[k' c] [<- Hin]].
    clear - Hg Hin. induction defn as [|[a b'] defn IHd]; [destruct Hin|]. cbn [fst] in *. cbn in Hg.
    destruct (str_eqb_spec k' a) as [->|Hne]; [discriminate|].
    destruct Hin as [Heq|Hin]; [injection Heq as -> _; contradiction|apply IHd; assumption].
Qed.

Lemma struct_run_py ph ser defn (Esc : pyexc -> Prop) strict ko identity partial anc items x :
  (forall k c, In (k, c) defn -> child_py ph ser c Esc) ->
  struct_run E defn strict ko identity partial ph ser anc items = Raise (XPy x) ->
  Esc x
  \/ (exists o name, ko = Some o /\ In name o /\ ~ In name (map fst defn)) /\ identity = VNone /\ x = KeyError
  \/ identity <> VNone /\ (exists o, ko = Some o) /\ (x = TypeError \/ x = IndexError \/ x = KeyError).
Proof.
  intros Hc H. unfold struct_run in H. apply bind_Raise in H. destruct H as [H|[order [Ho H]]].
  - right. right. destruct ko as [[|o os]|]; try discriminate. unfold poly_order, py in H.
    destruct (truthy identity) eqn:Ht; [|discriminate]. split; [intros ->; discriminate|]. split; [eauto|].
    destruct identity; try (injection H as <-; auto);
      repeat match type of H with context [match ?b with _ => _ end] => destruct b; try discriminate H end;
      injection H as <-; auto.
  - apply bind_Raise in H. destruct H as [H|[[[names acc] b] [_ H]]].
    + apply (struct_loop_py _ _ _ Esc) in H; [|exact Hc]. destruct H as [|[-> [k [Hk Hn]]]]; [auto|]. right.
      destruct ko as [[|o os]|].
      * injection Ho as <-. contradiction.
      * destruct identity; try (right; split; [discriminate|]; split; [eauto|auto]).
        left. cbn in Ho. injection Ho as <-. split; [|auto]. exists (o :: os), k. auto.
      * injection Ho as <-. contradiction.
    + match type of H with context [if ?c then _ else _] => destruct c end; discriminate.
Qed.

End Containers.

Lemma surrogate_py {F} E p valid un se ph anc v x :
  process_scalar E p (KSurrogate valid : kindP val F) un se ph false anc v = Raise (XPy x) ->
  is_num (p_constant p) = true /\ x = InvalidOperation
  \/ (exists t ts, valid = Some (t :: ts)) /\ (x = AttributeError \/ x = KeyError).
Proof.
  intros H. unfold process_scalar in H. cbn [andb] in H.
  apply bind_Raise in H. destruct H as [H|[nul [_ H]]]; [exfalso; exact (is_null_py _ _ _ _ _ H)|].
  destruct nul; [discriminate|]. cbn [bind] in H.
  apply bind_Raise in H. destruct H as [H|[v2 [_ H]]].
  { destruct (preprocess _ _ _ _); [discriminate|]. discriminate. }
  apply bind_Raise in H. destruct H as [H|[c [Hc H]]].
  { left. destruct (is_none (p_constant p)); [discriminate|]. apply veq_r_py in H. destruct H as [-> [_ H]]. auto. }
  destruct c; cbn [negb] in H; [|discriminate].
  apply bind_Raise in H. destruct H as [H|[v3 [_ H]]]; [|discriminate].
  right. apply validate_py in H; [|reflexivity]. exact H.
Qed.

Lemma sdel_incl k l : incl (sdel k l) l.
Proof.
  induction l as [|[a b] l IH]; [intros ? []|]. cbn [sdel].
  assert (H : incl ((a, b) :: sdel k l) ((a, b) :: l)) by (intros y [->|Hy]; [left; reflexivity|right; apply IH, Hy]).
  destruct a; try exact H. destruct (str_eqb k s); [|exact H]. intros y Hy. right. exact Hy.
Qed.

Lemma surr_unserialize_py E recon un anc v x :
  surr_unserialize E recon un anc v = Raise (XPy x) ->
  x = TypeError \/ x = ValueError
  \/ (exists items d, as_dict v = Some items /\ In (VStr $"__schema__", d) items /\ recon d = Raise (XPy x))
  \/ exists g a items l, as_dict v = Some items /\ incl l items
      /\ ((exists impl, In g (e_schemas E impl)) \/ exists d, In (VStr $"__schema__", d) items /\ recon d = Ok g)
      /\ un g a (VDict false l) = Raise (XPy x).
Proof.
  intros H. unfold surr_unserialize in H. destruct (as_dict v) as [items|]; [|discriminate]. cbv zeta in H.
  assert (Hdel : forall k, incl (sdel k (sdel $"_" items)) items)
    by (intros k; eapply incl_tran; apply sdel_incl).
  set (token := match sget $"_" items with Some t => t | None => VNone end) in H. clearbody token.
  destruct (negb (hashable token)); [unfold py in H; injection H as <-; auto|].
  set (impl := match token with VNone => O | t => e_impl E t end) in H. clearbody impl.
  destruct (sget $"__schema__" (sdel $"_" items)) as [sch|] eqn:Hsch.
  - destruct (truthy sch); [|unfold py in H; injection H as <-; auto].
    apply bind_Raise in H. destruct H as [H|[f [Hf H]]]; [right; right; left; exists items, sch; split; [reflexivity|]; split; [apply sget_In in Hsch; eapply sdel_incl, Hsch|exact H]|].
    apply bind_Raise in H. destruct H as [H|[r [_ H]]].
    { right. right. right. exists f, anc, items, (sdel $"__schema__" (sdel $"_" items)). split; [reflexivity|].
      split; [apply Hdel|]. split; [|exact H]. right. exists sch. split; [apply sget_In in Hsch; eapply sdel_incl, Hsch|exact Hf]. }
    destruct (as_dict r); [discriminate|]. unfold py in H. injection H as <-. auto.
  - destruct (e_schemas E impl) as [|s0 ss] eqn:Hs; [discriminate|].
    set (ver := match sget $"__version__" _ with Some w => w | None => _ end) in H. clearbody ver.
    destruct ver; try (unfold py in H; injection H as <-; auto; fail).
    set (i := if (z - 1 <? 0)%Z then _ else (z - 1)%Z) in H. clearbody i.
    destruct (i <? 0)%Z; [unfold py in H; injection H as <-; auto|].
    destruct (nth_error (s0 :: ss) (Z.to_nat i)) as [f|] eqn:Hn; [|unfold py in H; injection H as <-; auto].
    apply bind_Raise in H. destruct H as [H|[r [_ H]]].
    { right. right. right. exists f, anc, items, (sdel $"__version__" (sdel $"_" items)). split; [reflexivity|].
      split; [apply Hdel|]. split; [|exact H]. left. exists impl. rewrite Hs. eapply nth_error_In, Hn. }
    destruct (as_dict r); [discriminate|]. unfold py in H. injection H as <-. auto.
Qed.

Lemma entered_py key w r x : entered key w r = Raise (XPy x) -> x = TypeError.
Proof. destruct r; cbn; unfold py; congruence. Qed.

Lemma tagged_py E impl r x : Process.tagged E impl r = Raise (XPy x) -> x = TypeError \/ x = AttributeError.
Proof.
  unfold Process.tagged. destruct (e_surrogate E impl); [intros H; apply entered_py in H; auto|].
  unfold py. intros H. right. congruence.
Qed.

Lemma surr_serialize_py E desc se v x :
  surr_serialize E desc se v = Raise (XPy x) ->
  x = TypeError \/ x = IndexError \/ x = AttributeError \/ (exists g, desc g = Raise (XPy x))
  \/ exists g a l, ((exists impl, In g (e_schemas E impl)) \/ exists i z l, v = VSurr i (Some g) z l)
      /\ as_dict v = Some l /\ se g a (VDict false l) = Raise (XPy x).
Proof.
  intros H. destruct v as [| | | | | | | | | | | | | |impl schema version items| |]; cbn in H;
    try (unfold py in H; injection H as <-; auto; fail).
  destruct schema as [f|].
  - apply bind_Raise in H. destruct H as [H|[r [_ H]]].
    { do 4 right. exists f, [], items. split; [right; eauto|split; [reflexivity|exact H]]. }
    apply bind_Raise in H. destruct H as [H|[d [_ H]]]; [do 3 right; left; eauto|].
    apply bind_Raise in H. destruct H as [H|[r' [_ H]]]; [apply entered_py in H; auto|].
    apply tagged_py in H. destruct H; auto.
  - destruct (e_schemas E impl) as [|s0 ss] eqn:Hs; [apply tagged_py in H; destruct H; auto|].
    destruct version as [z|]; [|unfold py in H; injection H as <-; auto].
    cbv zeta in H. set (i := if (z - 1 <? 0)%Z then _ else (z - 1)%Z) in H. clearbody i.
    destruct (i <? 0)%Z; [unfold py in H; injection H as <-; auto|].
    destruct (nth_error (s0 :: ss) (Z.to_nat i)) as [f|] eqn:Hn; [|unfold py in H; injection H as <-; auto].
    apply bind_Raise in H. destruct H as [H|[r [_ H]]].
    { do 4 right. exists f, [], items.
      split; [left; exists impl; rewrite Hs; eapply nth_error_In, Hn|split; [reflexivity|exact H]]. }
    apply bind_Raise in H. destruct H as [H|[r' [_ H]]].
    { destruct (1 <? z)%Z; [apply entered_py in H; auto|discriminate]. }
    apply tagged_py in H. destruct H; auto.
Qed.

Lemma surr_unserialize_made E recon un anc v w :
  surr_unserialize E recon un anc v = Ok w -> exists i s z l, w = VSurr i s z l.
Proof.
  intros H. unfold surr_unserialize in H. destruct (as_dict v) as [items|]; [|discriminate]. cbv zeta in H.
  destruct (negb _); [discriminate|]. destruct (sget _ (sdel _ _)).
  - destruct (truthy _); [|discriminate]. apply bind_Ok in H. destruct H as [f [_ H]].
    apply bind_Ok in H. destruct H as [r [_ H]]. destruct (as_dict r); [|discriminate]. injection H as <-. eauto.
  - destruct (e_schemas _ _); [injection H as <-; eauto|].
    destruct (match sget _ (sdel _ items) with Some _ => _ | None => _ end); try discriminate.
    destruct (_ <? 0)%Z; [discriminate|]. destruct (nth_error _ _); [|discriminate].
    apply bind_Ok in H. destruct H as [r [_ H]]. destruct (as_dict r); [|discriminate]. injection H as <-. eauto 6.
Qed.

Lemma surrogate_ser_py {F} E desc recon (sub : field -> procfun) p valid ph anc v x :
  process_scalar E p (KSurrogate valid : kindP val F)
    (surr_unserialize E recon (fun f a w => sub f Inbound true a w))
    (surr_serialize E desc (fun f a w => sub f Outbound true a w)) ph true anc v = Raise (XPy x) ->
  ((ph = Outbound \/ p_preprocessor p <> None) /\ is_num (p_constant p) = true /\ x = InvalidOperation)
  \/ (exists t ts, valid = Some (t :: ts)) /\ (x = AttributeError \/ x = KeyError)
  \/ match ph with
     | Inbound => x = TypeError \/ x = ValueError
         \/ exists items d, as_dict v = Some items /\ In (VStr $"__schema__", d) items /\ recon d = Raise (XPy x)
     | Outbound => x = TypeError \/ x = IndexError \/ x = AttributeError \/ exists g, desc g = Raise (XPy x)
     end
  \/ exists g a l,
      ((exists impl, In g (e_schemas E impl))
       \/ match ph with
          | Inbound => exists items d, as_dict v = Some items /\ In (VStr $"__schema__", d) items /\ recon d = Ok g
          | Outbound => p_preprocessor p <> None \/ exists i z l, v = VSurr i (Some g) z l
          end)
      /\ (p_preprocessor p <> None \/ exists items, as_dict v = Some items /\ incl l items)
      /\ sub g ph true a (VDict false l) = Raise (XPy x).
Proof.
  intros H. unfold process_scalar in H. cbn [andb] in H.
  apply bind_Raise in H. destruct H as [H|[nul [_ H]]]; [exfalso; exact (is_null_py _ _ _ _ _ H)|].
  destruct nul; [discriminate|].
  apply bind_Raise in H. destruct H as [H|[v1 [Hv1 H]]].
  { destruct ph; cbn [phase_eqb] in H; [|discriminate]. apply surr_unserialize_py in H.
    destruct H as [H|[H|[H|[g [a [items [l [Hi [Hl [Hg H]]]]]]]]]]; try (right; right; left; auto; fail).
    do 3 right. exists g, a, l. split; [|split; [right; eauto|exact H]].
    destruct Hg as [Hg|[d Hg]]; [left; exact Hg|right; exists items, d; split; [exact Hi|exact Hg]]. }
  apply bind_Raise in H. destruct H as [H|[v2 [Hv2 H]]].
  { destruct (preprocess _ _ _ _); [discriminate|]. discriminate. }
  apply bind_Raise in H. destruct H as [H|[c [Hc H]]].
  { left. destruct (is_none (p_constant p)); [discriminate|]. apply veq_r_py in H. destruct H as [-> [Hn H]].
    split; [|auto]. destruct ph; [|left; reflexivity]. right. intros Hp. cbn [phase_eqb] in Hv1.
    assert (v2 = v1) by (unfold preprocess in Hv2; rewrite Hp in Hv2; cbn in Hv2; congruence). subst v2.
    apply surr_unserialize_made in Hv1. destruct Hv1 as [i [s [z [l ->]]]]. discriminate. }
  destruct c; cbn [negb] in H; [|discriminate].
  apply bind_Raise in H. destruct H as [H|[v3 [Hv3 H]]].
  { right. left. apply validate_py in H; [|reflexivity]. exact H. }
  destruct ph; cbn [phase_eqb] in H; [discriminate|].
  assert (H' : surr_serialize E desc (fun f a w => sub f Outbound true a w) v3 = Raise (XPy x)).
  { destruct (surr_serialize _ _ _ _) as [|[|[]]]; try discriminate H; exact H. }
  apply surr_serialize_py in H'. destruct H' as [H'|[H'|[H'|[H'|[g [a [l [Hg [Hl H']]]]]]]]]; try (right; right; left; auto; fail).
  do 3 right. exists g, a, l. cbn [phase_eqb] in Hv1. injection Hv1 as <-.
  destruct (p_preprocessor p) eqn:Hp.
  { split; [right; left; discriminate|]. split; [left; discriminate|exact H']. }
  assert (v2 = v) by (unfold preprocess in Hv2; rewrite Hp in Hv2; cbn in Hv2; congruence). subst v2.
  assert (v3 = v).
  2:{ subst. split; [destruct Hg as [Hg|Hg]; [left; exact Hg|right; right; exact Hg]|].
      split; [right; exists l; split; [exact Hl|apply incl_refl]|exact H']. }
  cbn [validate_value] in Hv3. destruct v; try discriminate Hv3. destruct valid as [[|t ts]|]; try congruence.
  destruct (e_identity E impl); [|discriminate]. destruct (existsb _ _); [congruence|discriminate].
Qed.

Lemma fparams_undefined E f : fparams E f = None -> exists i, f = FUndef i /\ ~ defined E (FUndef i).
Proof.
  destruct f as [i|]; cbn; [|discriminate]. intros H. exists i. split; [reflexivity|].
  intros [q [k He]]. rewrite He in H. discriminate.
Qed.

Lemma fparams_defined_as E f q : fparams E f = Some q -> defined_as E f q.
Proof.
  destruct f as [i|]; cbn; [|intros [= ->]; reflexivity].
  destruct (e_undef E i) as [[|p k]|]; try discriminate. intros [= ->]. eauto.
Qed.

(** @prop C36 Any exception that is not a structural error and escapes from [process] is one of an
    explicit list, determined by the fields of the schema: an escape from a field's own processing, from
    a subfield, or from a placeholder. *)
Lemma escaping_exceptions :
  forall E desc recon n f partial ph ser anc v x,
    process_gen E desc recon n f partial ph ser anc v = Raise (XPy x) ->
    may_escape E desc recon ph ser x f.
Proof.
  intros E desc recon n. induction n as [n IHn] using lt_wf_ind.
  intros f. induction f as [i|p k IH] using field_ind'; intros partial ph ser anc v x H.
  - rewrite process_FUndef in H. destruct (e_undef E i) as [[|q k]|] eqn:He.
    + apply escape_undefined; [|unfold py in H; injection H as <-; auto]. intros [q [k Hk]]. congruence.
    + destruct n as [|m]; [apply escape_recursion; unfold py in H; congruence|].
      eapply escape_placeholder; [exact He|]. exact (IHn m ltac:(lia) _ _ _ _ _ _ _ H).
    + apply escape_undefined; [|unfold py in H; injection H as <-; auto]. intros [q [k Hk]]. congruence.
  - rewrite process_Fld in H. unfold process_body in H.
    set (path := match anc with [] => _ | _ => _ end) in H. clearbody path.
    set (Esc := fun x => may_escape E desc recon ph ser x (Fld p k)).
    assert (Hsub : forall g, In g (subfields k) ->
              child_py E ph ser (g, process_gen E desc recon n g false) Esc).
    { intros g Hg. split.
      - intros anc' v' x' H'. eapply escape_sub; [exact Hg|]. eapply IH; eassumption.
      - intros Hp. cbn [fst] in Hp. apply fparams_undefined in Hp. destruct Hp as [i [-> Hp]].
        split; (eapply escape_sub; [exact Hg|apply escape_undefined; auto]). }
    change (Esc x).
    assert (Hpre : forall w, pre_raw E p w = Raise (XPy x) ->
              exists i w, p_preprocessor p = Some i /\ e_pre E i w = Raise (XPy x)).
    { intros w Hw. unfold pre_raw in Hw. destruct (p_preprocessor p) as [i|]; [|discriminate]. eauto. }
    assert (Hpre2 : forall w w', pre_raw E p w = Ok w' -> w = w' \/ p_preprocessor p <> None).
    { intros w w' Hw. unfold pre_raw in Hw. destruct (p_preprocessor p); [right; discriminate|]. left. congruence. }
    destruct k; cbn [kmap] in H;
      try (apply escape_here; apply (scalar_py E desc recon) in H; [|reflexivity]; cbn; exact H).
    + (* map *)
      unfold process_map in H. apply bind_Raise in H. destruct H as [H|[nul [_ H]]]; [exfalso; exact (is_null_py _ _ _ _ _ H)|].
      destruct nul; [discriminate|]. destruct (as_dict v) as [it|] eqn:Hd; [|discriminate].
      apply bind_Raise in H. destruct H as [H|[v1 [Hv1 H]]].
      { apply escape_here. cbn. right. right. left. eapply Hpre, H. }
      destruct (as_dict v1) as [items|] eqn:Hd1.
      2:{ apply escape_here. cbn. right. right. right. unfold py in H. injection H as <-. split; [|reflexivity].
          destruct (Hpre2 _ _ Hv1) as [->|Hp]; [congruence|exact Hp]. }
      apply bind_Raise in H. destruct H as [H|[r1 [_ H]]].
      { eapply map_loop_py; [| |exact H]; cbn [fst].
        - apply Hsub. destruct key; left; reflexivity.
        - destruct key as [kf|]; cbn [option_map]; [|exact I]. split; [apply Hsub; right; left; reflexivity|].
          apply escape_here. cbn. left. split; [discriminate|reflexivity]. }
      apply bind_Raise in H. destruct H as [H|[r2 [_ H]]].
      { destruct required_keys as [req|]; [|discriminate]. apply map_required_py in H. destruct H as [[y [Hy Hh]] ->].
        apply escape_here. cbn. right. left. split; [|reflexivity]. exists req, y. auto. }
      destruct (snd r2); discriminate.
    + (* sequence *)
      unfold process_sequence in H. apply bind_Raise in H. destruct H as [H|[nul [_ H]]]; [exfalso; exact (is_null_py _ _ _ _ _ H)|].
      destruct nul; [discriminate|]. destruct v; try discriminate.
      apply bind_Raise in H. destruct H as [H|[v1 [Hv1 H]]].
      { apply escape_here. cbn. right. left. eapply Hpre, H. }
      destruct (py_iter v1) as [l'|] eqn:Hd1.
      2:{ apply escape_here. cbn. right. right. unfold py in H. injection H as <-. split; [|reflexivity].
          destruct (Hpre2 _ _ Hv1) as [<-|Hp]; [discriminate|exact Hp]. }
      destruct (below _ _ _); [discriminate|]. destruct (above _ _ _); [discriminate|].
      apply bind_Raise in H. destruct H as [H|[r [_ H]]].
      { eapply seq_loop_py; [|exact H]. apply Hsub. left. reflexivity. }
      destruct (snd r); [|discriminate]. cbn [negb] in H. destruct unique; [|discriminate].
      destruct (forallb _ _); [destruct (has_dup _ _); discriminate|].
      apply escape_here. cbn. left. unfold py in H. split; [reflexivity|congruence].
    + (* structure *)
      unfold process_structure in H. apply bind_Raise in H. destruct H as [H|[nul [_ H]]]; [exfalso; exact (is_null_py _ _ _ _ _ H)|].
      destruct nul; [discriminate|]. destruct (as_dict v) as [it|] eqn:Hd; [|discriminate].
      apply bind_Raise in H. destruct H as [H|[v1 [Hv1 H]]]; [destruct (pre_raw _ _ _); discriminate|].
      destruct (as_dict v1) as [items|] eqn:Hd1.
      2:{ apply escape_here. cbn. left. unfold py in H. injection H as <-. split; [|reflexivity].
          destruct (pre_raw E p v) as [w|] eqn:Hw; [|discriminate]. injection Hv1 as ->.
          destruct (Hpre2 _ _ Hw) as [->|Hp]; [congruence|exact Hp]. }
      destruct d as [d|on variants]; cbn [sdef_map] in H.
      * apply (struct_run_py E ph ser _ Esc) in H.
        2:{ intros s c Hin. apply in_map_iff in Hin. destruct Hin as [[s' g] [[= <- <-] Hin]].
            apply Hsub. cbn. apply in_map_iff. exists (s', g). auto. }
        destruct H as [H|[[[o [name [Hko [Hin Hn]]]] [_ ->]]|[Hi _]]]; [exact H| |congruence].
        apply escape_here. cbn. right. left. split; [|reflexivity]. exists o, name. split; [exact Hko|]. split; [exact Hin|].
        intros Hm. apply Hn. rewrite map_map. exact Hm.
      * cbn [fst snd] in H.
        assert (Hon := Hsub on (or_introl eq_refl)). destruct Hon as [Hon Hon2]. cbn [fst snd] in Hon, Hon2.
        destruct (fparams E on) as [q|] eqn:Hq; [|unfold py in H; injection H as <-; apply Hon2; reflexivity].
        match type of H with context [match ?b with _ => _ end] => destruct b as [ident|] end; [|discriminate].
        assert (H' : match p_name q with
                     | None => py TypeError
                     | Some n0 =>
                         do ident' <- process_gen E desc recon n on false ph ser (path ++ [$"." ++ n0]) ident;
                         if hashable ident' then
                           match find (fun vd => veq (e_local E) (fst vd) ident')
                                   (map (fun vd => (fst vd, map (fun kf => (fst kf, (snd kf, process_gen E desc recon n (snd kf) false))) (snd vd))) variants) with
                           | Some (_, (kf :: rest)) =>
                               struct_run E (kf :: rest) strict key_order ident' partial ph ser path items
                           | _ => verr path $"unrecognized"
                           end
                         else py TypeError
                     end = Raise (XPy x)).
        { destruct ident; try exact H; discriminate. }
        clear H. rename H' into H.
        destruct (p_name q) as [nm|] eqn:Hnm.
        2:{ apply escape_here. cbn. right. right. left. unfold py in H. injection H as <-. split; [|reflexivity].
            exists q. split; [apply fparams_defined_as, Hq|exact Hnm]. }
        apply bind_Raise in H. destruct H as [H|[ident' [Hi H]]]; [eapply Hon, H|].
        destruct (hashable ident') eqn:Hh.
        2:{ apply escape_here. cbn. right. right. right. left. unfold py in H. injection H as <-. split; [|reflexivity].
            exists n, (path ++ [$"." ++ nm]), ident, ident'. auto. }
        destruct (find _ _) as [[vv [|kf rest]]|] eqn:Hf; try discriminate.
        apply find_some in Hf. destruct Hf as [Hf _]. apply in_map_iff in Hf. destruct Hf as [[t vd] [[= -> Hvd] Hin]].
        apply (struct_run_py E ph ser _ Esc) in H.
        2:{ intros s c Hc. rewrite <- Hvd in Hc. apply in_map_iff in Hc. destruct Hc as [[s' g] [[= <- <-] Hc]].
            apply Hsub. cbn. right. apply in_flat_map. exists (vv, vd). split; [exact Hin|]. cbn. apply in_map_iff. exists (s', g). auto. }
        destruct H as [H|H]; [exact H|]. apply escape_here. cbn. right. right. right. right.
        destruct H as [[[o [name [Hko _]]] [_ ->]]|[_ [Hko Hx]]]; [split; [eauto|auto]|auto].
    + (* surrogate *)
      destruct ser; [|apply escape_here; cbn; apply surrogate_py in H; destruct H as [H|H]; auto].
      apply surrogate_ser_py in H. destruct H as [[_ H]|[H|[H|[g [a [w [Hg [_ H]]]]]]]].
      * apply escape_here. cbn. auto.
      * apply escape_here. cbn. auto.
      * apply escape_here. cbn. right. right. split; [reflexivity|].
        destruct ph; [destruct H as [H|[H|[items [d [_ [_ H]]]]]]|destruct H as [H|[H|[H|H]]]]; eauto 6.
      * unfold sub_of in H. destruct n as [|m].
        -- apply escape_here. cbn. right. right. split; [reflexivity|]. unfold py in H. injection H as <-. destruct ph; auto.
        -- apply (escape_schema E desc recon ph true x p valid g); [reflexivity| |exact (IHn m ltac:(lia) _ _ _ _ _ _ _ H)].
           destruct Hg as [Hg|Hg]; [left; exact Hg|right]. destruct ph; [|exact I].
           destruct Hg as [items [d [_ [_ Hg]]]]. exists d. exact Hg.
    + (* tuple *)
      unfold process_tuple in H. apply bind_Raise in H. destruct H as [H|[nul [_ H]]]; [exfalso; exact (is_null_py _ _ _ _ _ H)|].
      destruct nul; [discriminate|].
      assert (Hv : py_iter v <> None).
      { intros Hv. destruct v; discriminate. }
      assert (H' : (do v1 <- pre_raw E p v;
        match py_iter v1 with
        | None => py TypeError
        | Some l =>
          if Nat.eqb (length l) (length (map (fun g => (g, process_gen E desc recon n g false)) values)) then
            do r <- tuple_loop E (map (fun g => (g, process_gen E desc recon n g false)) values) ph ser path 0 v1;
            if snd r then Ok (VTuple (fst r)) else serr path (VList (fst r))
          else verr path $"length"
        end) = Raise (XPy x) /\ ((exists l, v = VList l) \/ exists l, v = VTuple l)).
      { destruct v; try discriminate; (split; [exact H|eauto]). }
      clear H. destruct H' as [H Hvv].
      apply bind_Raise in H. destruct H as [H|[v1 [Hv1 H]]].
      { apply escape_here. cbn. left. eapply Hpre, H. }
      destruct (py_iter v1) as [l|] eqn:Hl.
      2:{ apply escape_here. cbn. right. unfold py in H. injection H as <-. split; [|auto].
          destruct (Hpre2 _ _ Hv1) as [->|Hp]; [congruence|exact Hp]. }
      destruct (Nat.eqb_spec (length l) (length (map (fun g => (g, process_gen E desc recon n g false)) values))) as [Hlen|]; [|discriminate].
      apply bind_Raise in H. destruct H as [H|[r [_ H]]]; [|destruct (snd r); discriminate].
      apply (tuple_loop_py E ph ser _ Esc) in H.
      2:{ apply Forall_forall. intros c Hc. apply in_map_iff in Hc. destruct Hc as [g [<- Hg]]. apply Hsub, Hg. }
      destruct H as [H|[j [Hj H]]]; [exact H|]. rewrite map_length in Hj. rewrite map_length in Hlen.
      assert (Hx : nth_error l j <> None) by (apply nth_error_Some; lia).
      apply escape_here. cbn. right.
      destruct (Hpre2 _ _ Hv1) as [<-|Hp].
      * exfalso. destruct Hvv as [[l0 ->]|[l0 ->]]; cbn in Hl, H; injection Hl as ->; destruct (nth_error l j); congruence.
      * split; [exact Hp|]. unfold py_index in H. unfold py in H. rewrite Hl in H.
        destruct v1; try (destruct (nth_error l j); [discriminate|congruence]);
          (destruct (dget _ _ _); [discriminate|injection H as <-; auto]).
    + (* union *)
      unfold process_union in H. apply bind_Raise in H. destruct H as [H|[nul [_ H]]]; [exfalso; exact (is_null_py _ _ _ _ _ H)|].
      destruct nul; [discriminate|].
      eapply union_loop_py in H; [exact H|]. apply Forall_forall. intros c Hc. apply in_map_iff in Hc.
      destruct Hc as [g [<- Hg]]. apply Hsub, Hg.
Qed.

Lemma veq_string L s v : veq L (VStr s) v = true -> v = VStr s.
Proof. destruct v; try discriminate. cbn. destruct (str_eqb_spec s s0); [congruence|discriminate]. Qed.

Lemma string_enumeration_hashable E desc recon n q l ig partial ph ser anc v r :
  Forall (fun y => exists s, y = VStr s) l ->
  process_gen E desc recon n (Fld q (KEnumeration l ig)) partial ph ser anc v = Ok r -> hashable r = true.
Proof.
  intros Hl H. rewrite process_Fld in H. unfold process_body in H. cbn [kmap] in H.
  set (path := match anc with [] => _ | _ => _ end) in H. clearbody path.
  unfold process_scalar in H. apply bind_Ok in H. destruct H as [nul [_ H]].
  destruct nul; [injection H as <-; reflexivity|].
  apply bind_Ok in H. destruct H as [v1 [_ H]]. apply bind_Ok in H. destruct H as [v2 [_ H]].
  apply bind_Ok in H. destruct H as [c [_ H]]. destruct c; [|discriminate]. cbn [negb] in H.
  apply bind_Ok in H. destruct H as [v3 [Hv H]].
  assert (Hr : r = v3).
  { destruct ser, ph; cbn in H; congruence. }
  subst v3. clear H. cbn [validate_value] in Hv. apply bind_Ok in Hv. destruct Hv as [b [Hb Hv]].
  destruct b; [|discriminate]. injection Hv as <-. apply vmem_r_true in Hb. destruct Hb as [y [Hy Hq]].
  rewrite Forall_forall in Hl. destruct (Hl y Hy) as [s ->]. apply veq_string in Hq. subst. reflexivity.
Qed.

(** @example
(* A unique sequence: of the listed exceptions only TypeError, and it does escape. *)
Example C36_escape_example :
  let f := Fld p0 (KSequence (Fld p0 KObject) None None true) in
  run0 f Inbound false (VList [VList []]) = Raise (XPy TypeError)
  /\ forall x, may_escape env0 nodesc norecon Inbound false x f -> x = TypeError.
Proof.
  split; [reflexivity|]. intros x H. inversion H as [p k H'|p k g Hg H'| | | |]; subst.
  - cbn in H'. destruct H' as [[_ H']|[[i [w [H' _]]]|[H' _]]]; [exact H'|discriminate|contradiction].
  - destruct Hg as [<-|[]]. inversion H' as [p k H2|p k g Hg H2| | | |]; subst.
    + cbn in H2. destruct H2 as [[H2 _]|[]]. discriminate.
    + destruct Hg.
Qed.
@end *)

Lemma tame_no_escape E desc recon ph ser x f :
  complete f -> everywhere (tame ph ser) f -> may_escape E desc recon ph ser x f -> False.
Proof.
  intros Hc Ht H.
  induction H as [p k H|p k g Hg H IH|p valid g Hs Hg H IH|i g He H IH|i Hx|i Hn Hx]; try (inversion Hc; fail).
  - clear Hc. apply everywhere_top in Ht.
    assert (Hhash : forall q l ig, Forall (fun y => exists s, y = VStr s) l ->
              forall n anc v r, process_gen E desc recon n (Fld q (KEnumeration l ig)) false ph ser anc v = Ok r ->
              hashable r = false -> False).
    { intros q l ig Hl n anc v r Hr Hh. apply string_enumeration_hashable in Hr; [congruence|exact Hl]. }
    destruct k; cbn in H, Ht; try (destruct Ht as [Ht1 Ht2]; destruct H as [[H _]|H]; [congruence|]);
      try contradiction; try (destruct Ht2; fail).
    + destruct H as [-> [-> _]]. apply Ht2; auto.
    + destruct Ht2 as [-> ->]. destruct H as [[H|H] _]; congruence.
    + destruct Ht2 as [-> ->]. destruct H as [[H|H] _]; congruence.
    + destruct Ht2 as [Hk [Hp Hn]]. destruct H as [[[H|H] _]|[[y [Hy H]] _]]; try congruence.
      rewrite Forall_forall in Hn. rewrite (Hn y Hy) in H. discriminate.
    + destruct Ht2 as [Hp Hh]. destruct H as [[[r [y [-> [Hy H]]]] _]|[[i [w [H _]]]|[H _]]]; try congruence.
      rewrite Forall_forall in Hh. rewrite (Hh y Hy) in H. discriminate.
    + destruct H as [[i [w [H _]]]|[H _]]; congruence.
    + destruct d as [d|on vs].
      * destruct Ht as [Hp Hk]. destruct H as [[H _]|[[[o [nm [-> [Hin Hn]]]] _]|[]]]; [congruence|].
        apply Hn, Hk, Hin.
      * destruct Ht as [Hp [-> [q [l [ig [-> [Hn Hl]]]]]]].
        destruct H as [[H _]|[[[] _]|[[[q' [H1 H2]] _]|[[[n [anc [v [r [H1 H2]]]]] _]|[[o H] _]]]]]; try congruence.
        eapply Hhash; eassumption.
    + destruct H as [[i [w [H _]]]|[H _]]; congruence.
  - inversion Hc; subst. apply IH; [auto|]. eapply everywhere_sub; eassumption.
  - apply everywhere_top in Ht. destruct Ht as [_ []].
Qed.

(** @prop C36 A schema without placeholders whose fields are all tame lets no exception but
    structural errors escape, for any value. *)
Lemma tame_schemas_orderly_partial :
  forall E desc recon n f partial ph ser anc v,
    complete f -> everywhere (tame ph ser) f ->
    orderly (process_gen E desc recon n f partial ph ser anc v).
Proof.
  intros E desc recon n f partial ph ser anc v Hc Ht x H. apply escaping_exceptions in H.
  exact (tame_no_escape E desc recon ph ser x f Hc Ht H).
Qed.

(** @example
(* Sequences of texts under a key, with a polymorphic part. *)
Example C36_tame_example :
  let f := Fld p0 (KStructure (SPlain
             [($"a", Fld p0 (KSequence (Fld p0 (KText None None None false)) None None false));
              ($"b", Fld p0 (KStructure (SPoly (Fld (p_named $"t") (KEnumeration [VStr $"x"] None))
                                              [(VStr $"x", [($"n", Fld p0 (KInteger None None))])]) true None))])
             true None) in
  complete f /\ everywhere (tame Inbound true) f
  /\ orderly (run0 f Inbound true (VDict false [(VStr $"a", VInt 1); (VInt 2, VNone)])).
Proof.
  intros f. assert (H1 : complete f).
  { repeat (constructor; cbn; intros ? H; repeat destruct H as [<-|H]; try contradiction). }
  assert (H2 : everywhere (tame Inbound true) f).
  { repeat (constructor; [cbn|intros ? H; cbn in H; repeat destruct H as [<-|H]; try contradiction]);
      auto using incl_refl.
    split; [reflexivity|]. split; [reflexivity|]. exists (p_named $"t"), [VStr $"x"], None.
    split; [reflexivity|]. split; [discriminate|]. constructor; [eauto|constructor]. }
  split; [exact H1|]. split; [exact H2|]. apply (tame_schemas_orderly_partial env0 nodesc norecon); assumption.
Qed.
@end *)

(** @prop C36 As stated the claim fails: a unique sequence of unconstrained items, given an item that
    cannot be hashed, raises TypeError. *)
Lemma only_structural_errors_refuted :
  exists E desc recon n f v,
    complete f /\ everywhere ordinary f
    /\ process_gen E desc recon n f false Inbound false [] v = Raise (XPy TypeError).
Proof.
  exists env0, nodesc, norecon, O, (Fld p0 (KSequence (Fld p0 (KMap (Fld p0 KBoolean) None None)) None None true)),
    (VList [VDict false []]).
  split; [|split; [|reflexivity]].
  - constructor. intros g [<-|[]]. constructor. intros g [<-|[]]. constructor. intros g [].
  - constructor; [reflexivity|]. intros g [<-|[]]. constructor; [reflexivity|]. intros g [<-|[]].
    constructor; [exact I|]. intros g [].
Qed.

(** An environment where the implementations of surrogates have a name. *)
Definition env_surrogate : env :=
  {| e_pre := e_pre env0; e_ext := e_ext env0; e_inst := e_inst env0; e_pattern := e_pattern env0;
     e_local := e_local env0; e_pad := e_pad env0; e_udigit := e_udigit env0; e_uword := e_uword env0;
     e_ulower := e_ulower env0; e_import := e_import env0; e_identify := e_identify env0;
     e_undef := e_undef env0; e_str := e_str env0; e_impl := e_impl env0; e_schemas := e_schemas env0;
     e_compile := e_compile env0; e_repr := e_repr env0; e_surrogate := e_surrogate env0;
     e_identity := fun _ => Some $"b" |}.

Definition quiet (f : field) : res val := Ok VNone.

Lemma occurs E p k ph ser v x k0 :
  same_class k k0 -> p_preprocessor p = None ->
  (forall g, In g (subfields k) -> complete g /\ everywhere (tame ph ser) g) ->
  (ser = true -> kind_type k <> $"surrogate") ->
  process_gen E quiet norecon O (Fld p k) false ph ser [] v = Raise (XPy x) ->
  exists E desc recon n p k partial ph ser anc v,
      same_class k k0 /\ p_preprocessor p = None
      /\ (forall f y, desc f <> Raise (XPy y))
      /\ (forall g, In g (subfields k) -> complete g /\ everywhere (tame ph ser) g)
      /\ (ser = true -> kind_type k <> $"surrogate")
      /\ process_gen E desc recon n (Fld p k) partial ph ser anc v = Raise (XPy x).
Proof.
  intros H1 H2 H3 H4 H5. exists E, quiet, norecon, O, p, k, false, ph, ser, [], v.
  repeat (split; [assumption || (intros ? ?; discriminate)|]). assumption.
Qed.

Lemma same_plain k k0 :
  kind_type k = kind_type k0 -> (forall d s o, k <> KStructure d s o) -> (forall d s o, k0 <> KStructure d s o) ->
  same_class k k0.
Proof.
  intros H H1 H2. split; [exact H|].
  split; intros [on [vs [s [o ->]]]]; exfalso; [eapply H1|eapply H2]; reflexivity.
Qed.

Tactic Notation "occ" constr(E) constr(p) uconstr(k) constr(ph) constr(ser) constr(v) :=
  apply (occurs E p k ph ser v);
  [ first [ split; [reflexivity|]; split; intros [? [? [? [? ?]]]]; (discriminate || (repeat eexists; fail) || eauto 6)
          | apply same_plain; [reflexivity|discriminate|discriminate] ]
  | reflexivity
  | intros ? Hg; cbn in Hg; repeat destruct Hg as [<- | Hg]; try contradiction;
    (split; [constructor; intros ? []|constructor; [cbn|intros ? []]; auto])
  | first [discriminate | intros _; intros H; apply (f_equal (@length N)) in H; vm_compute in H; discriminate | idtac]
  | first [reflexivity | vm_compute; reflexivity | idtac] ].

Definition one : params := p_const (VInt 1).
Definition snan : val := VDec (DNan false true 0).
Definition text : field := Fld p0 (KText None None None false).
Definition noon (z : option tz) : datetime := DateTime (Date 2000 1 1) (Tod 12 0 0 0) z.

Lemma own_exceptions_class k k0 : same_class k k0 -> own_exceptions k = own_exceptions k0.
Proof.
  intros [H [H1 H2]].
  destruct k as [| | | | | | | | | | | | | | |[d|on vs] s o| | | | | | | ],
           k0 as [| | | | | | | | | | | | | | |[d0|on0 vs0] s0 o0| | | | | | | ]; try reflexivity;
    try (exfalso; vm_compute in H; discriminate).
  - destruct H2 as [? [? [? [? ?]]]]; [repeat eexists|discriminate].
  - destruct H1 as [? [? [? [? ?]]]]; [repeat eexists|discriminate].
Qed.

(** @prop C36 Each class raises on its own exactly the listed exceptions (besides those of the
    description of a field a Definition serializes and of the schema of a serialized surrogate):
    without preprocessor and over subfields that let nothing escape no other exception can escape, and
    every listed one does for some field of the class and some value. *)
Lemma class_exceptions :
  forall k0 x,
    In x (own_exceptions k0) <->
    exists E desc recon n p k partial ph ser anc v,
      same_class k k0 /\ p_preprocessor p = None
      /\ (forall f y, desc f <> Raise (XPy y))
      /\ (forall g, In g (subfields k) -> complete g /\ everywhere (tame ph ser) g)
      /\ (ser = true -> kind_type k <> $"surrogate")
      /\ process_gen E desc recon n (Fld p k) partial ph ser anc v = Raise (XPy x).
Proof.
  intros k0 x. split.
  - destruct k0 as [| | | | | | | | | | | | | | |[d|on vs] s o| | | | | | | ]; cbn [own_exceptions In]; intros H;
      repeat destruct H as [<- | H]; try contradiction.
    + occ env0 one (KField) Outbound false snan.
    + occ env0 one (KBinary  None None) Outbound false snan.
    + occ env0 p0 (KBinary  None None) Inbound true (VBytes $"QUJD*R").
    + occ env0 one (KBoolean) Outbound false snan.
    + occ env0 one (KDate  None None) Outbound false snan.
    + occ env0 p0 (KDate  (Some (Date 2000 1 1)) None) Inbound false (VDateTime (noon None)).
    + occ env0 one (KDateTime  None None false) Outbound false snan.
    + occ env0 p0 (KDateTime  None None true) Inbound false
          (VDateTime (DateTime (Date 1 1 1) (Tod 0 0 0 0) (Some (TzFixed 60)))).
    + occ env0 p0 (KDateTime  (Some (noon None)) None true) Inbound false (VDateTime (noon (Some TzUTC))).
    + occ env0 one (KDecimal  None None) Outbound false snan.
    + occ env0 one (KDefinition  None) Outbound false snan.
    + occ env0 one (KEmail  true true None None) Outbound false snan.
    + occ env0 one (KEnumeration  [VStr $"a"] None) Outbound false snan.
    + occ env0 one (KEnumeration  [VStr $"a"] None) Outbound false (VStr $"a").
    + occ env0 one (KError) Outbound false snan.
    + occ env0 p0 (KError) Inbound true (VTuple [VInt 1; VNone]).
    + occ env0 one (KFloat  None None) Outbound false snan.
    + occ env0 one (KInteger  None None) Outbound false snan.
    + occ env0 p0 (KMap text None (Some [VList []])) Inbound false (VDict false []).
    + occ env0 one (KObject) Outbound false snan.
    + occ env0 p0 (KSequence (Fld p0 (KStructure (SPlain []) true None)) None None true) Inbound false (VList [VDict false []]).
    + occ env0 p0 (KStructure (SPlain [($"a", text)]) true (Some [$"b"])) Outbound false (VDict false []).
    + occ env0 p0 (KStructure (SPoly (Fld (p_named $"t") (KText None None None false)) [(VStr $"x", [($"a", text)])]) true (Some [$"b"]))
        Outbound false (VDict false [(VStr $"t", VStr $"x")]).
    + occ env0 p0 (KStructure (SPoly (Fld (p_named $"t") (KInteger None None)) [(VInt 5, [($"a", text)])]) true (Some [$"b"]))
        Outbound false (VDict false [(VStr $"t", VInt 5)]).
    + occ env0 p0 (KStructure (SPoly (Fld (p_named $"t") (KInteger None None)) [(VInt 0, [($"a", text)])]) true (Some [$"b"]))
        Outbound false (VDict false [(VStr $"t", VInt 0)]).
    + occ env0 one (KSurrogate  None) Outbound false snan.
    + occ env0 p0 (KSurrogate  (Some [$"a"])) Outbound false (VSurr 0 None None []).
    + occ env_surrogate p0 (KSurrogate  (Some [$"a"])) Outbound false (VSurr 0 None None []).
    + occ env0 one (KText  None None None false) Outbound false snan.
    + occ env0 one (KTime  None None) Outbound false snan.
    + occ env0 one (KToken  None) Outbound false snan.
    + occ env0 one (KUUID) Outbound false snan.
  - intros [E [desc [recon [n [p [k [partial [ph [ser [anc [v [Hc [Hp [Hd [Hs [Hsur H]]]]]]]]]]]]]]]].
    rewrite <- (own_exceptions_class k k0 Hc). clear k0 Hc.
    apply escaping_exceptions in H. inversion H as [p' k' Hm|p' k' g Hg Hm|p' valid g Hser Hg Hm|? ? ? ?|? ?|? ? ?]; subst.
    + destruct k as [| | | | | | | | | | | | | | |[d|on vs] s o| | | | | | | ]; cbn in Hm |- *;
        try (intuition subst; auto; congruence).
      * destruct Hm as [[_ ->]|[_ [_ [f Hf]]]]; [auto|]. exfalso. exact (Hd f x Hf).
      * destruct Hm as [[_ ->]|[[_ ->]|[[i [w [Hi _]]]|[Hi _]]]]; auto; congruence.
      * destruct Hm as [[_ ->]|[[i [w [Hi _]]]|[Hi _]]]; auto; congruence.
      * destruct Hm as [[i [w [Hi _]]]|[Hi _]]; congruence.
    + exfalso. destruct (Hs g Hg) as [H1 H2]. exact (tame_no_escape E desc recon ph ser x g H1 H2 Hm).
    + exfalso. apply Hsur; reflexivity.
Qed.

(** @example
(* Malformed base64 given as bytes. *)
Example C36_class_exceptions_example :
  own_exceptions (KBinary None None) = [InvalidOperation; BinasciiError]
  /\ run0 (Fld p0 (KBinary None None)) Inbound true (VBytes $"QUJD*R") = Raise (XPy BinasciiError).
Proof. split; vm_compute; reflexivity. Qed.
@end *)

(** An environment whose classes of surrogates have one schema, and whose tokens name the class 1. *)
Definition env_versions (identity : option str) : env :=
  {| e_pre := e_pre env0; e_ext := e_ext env0; e_inst := e_inst env0; e_pattern := e_pattern env0;
     e_local := e_local env0; e_pad := e_pad env0; e_udigit := e_udigit env0; e_uword := e_uword env0;
     e_ulower := e_ulower env0; e_import := e_import env0; e_identify := e_identify env0;
     e_undef := e_undef env0; e_str := e_str env0; e_impl := fun _ => 1%nat;
     e_schemas := fun i => match i with 1%nat => [Fld p0 (KMap text None None)] | _ => [] end;
     e_compile := e_compile env0; e_repr := e_repr env0; e_surrogate := e_surrogate env0;
     e_identity := fun _ => identity |}.

(** @prop C36 A Surrogate field raises on its own, given serialized values or serializing, exactly
    the listed exceptions: if descriptions, reconstructions and schemas let nothing escape, no other
    exception can escape, and every listed one does for some field, class and value. *)
Lemma surrogate_own_exceptions :
  forall ph x,
    In x (surrogate_exceptions ph) <->
    exists E desc recon n p valid partial anc v,
      p_preprocessor p = None
      /\ (forall f y, desc f <> Raise (XPy y)) /\ (forall d y, recon d <> Raise (XPy y))
      /\ (forall g, schema_met E recon v g -> complete g /\ everywhere (tame ph true) g)
      /\ process_gen E desc recon (S n) (Fld p (KSurrogate valid)) partial ph true anc v = Raise (XPy x).
Proof.
  intros ph x. split.
  - assert (Hschemas : forall o v ph', (forall i g z l, v <> VSurr i (Some g) z l) ->
              forall g, schema_met (env_versions o) (fun _ => terr [] $"invalid") v g ->
              complete g /\ everywhere (tame ph' true) g).
    { intros o v ph' Hv g [[i Hi]|[[d Hd]|[i [z [l Hl]]]]]; [|discriminate|exfalso; eapply Hv, Hl].
      destruct i as [|[|i]]; cbn in Hi; [contradiction| |contradiction]. destruct Hi as [<-|[]].
      split; [constructor; intros ? [<-|[]]; constructor; intros ? []|].
      constructor; [cbn; auto|]. intros ? [<-|[]]. constructor; [cbn; auto|]. intros ? []. }
    assert (Hocc : forall o p valid v, p_preprocessor p = None -> (forall i g z l, v <> VSurr i (Some g) z l) ->
              process_gen (env_versions o) quiet (fun _ => terr [] $"invalid") 1
                (Fld p (KSurrogate valid)) false ph true [] v = Raise (XPy x) ->
              exists E desc recon n p valid partial anc v,
                p_preprocessor p = None
                /\ (forall f y, desc f <> Raise (XPy y)) /\ (forall d y, recon d <> Raise (XPy y))
                /\ (forall g, schema_met E recon v g -> complete g /\ everywhere (tame ph true) g)
                /\ process_gen E desc recon (S n) (Fld p (KSurrogate valid)) partial ph true anc v = Raise (XPy x)).
    { intros o p valid v Hp Hv H. exists (env_versions o), quiet, (fun _ => terr [] $"invalid"), O, p, valid, false, [], v.
      split; [exact Hp|]. split; [discriminate|]. split; [discriminate|]. split; [apply Hschemas, Hv|exact H]. }
    destruct ph; cbn [surrogate_exceptions In]; intros H; repeat destruct H as [<- | H]; try contradiction.
    + apply (Hocc None p0 (Some [$"a"]) (VDict false [])); [reflexivity|discriminate|vm_compute; reflexivity].
    + apply (Hocc (Some $"b") p0 (Some [$"a"]) (VDict false [])); [reflexivity|discriminate|vm_compute; reflexivity].
    + apply (Hocc None p0 None (VDict false [(VStr $"_", VList [])])); [reflexivity|discriminate|vm_compute; reflexivity].
    + apply (Hocc None p0 None (VDict false [(VStr $"_", VStr $"s"); (VStr $"__version__", VInt 2)]));
        [reflexivity|discriminate|vm_compute; reflexivity].
    + apply (Hocc None p0 None (VSurr 0 None None [])); [reflexivity|discriminate|vm_compute; reflexivity].
    + apply (Hocc (Some $"b") p0 (Some [$"a"]) (VSurr 0 None None [])); [reflexivity|discriminate|vm_compute; reflexivity].
    + apply (Hocc None p0 None (VSurr 1 None None [])); [reflexivity|discriminate|vm_compute; reflexivity].
    + apply (Hocc None p0 None (VSurr 1 None (Some 2%Z) [])); [reflexivity|discriminate|vm_compute; reflexivity].
    + apply (Hocc None one None snan); [reflexivity|discriminate|vm_compute; reflexivity].
  - intros [E [desc [recon [n [p [valid [partial [anc [v [Hp [Hd [Hr [Hs H]]]]]]]]]]]]].
    rewrite process_Fld in H. unfold process_body in H. cbn [kmap] in H. cbv zeta in H.
    apply surrogate_ser_py in H. destruct H as [[Hph [_ ->]]|[[_ H]|[H|[g [a [w [Hg [_ H]]]]]]]].
    + destruct Hph as [->|Hph]; [cbn; auto 10|contradiction].
    + destruct ph, H as [->| ->]; cbn; auto.
    + destruct ph; [destruct H as [->|[->|[items [d [_ [_ H]]]]]]|destruct H as [->|[->|[->|[f H]]]]]; cbn; auto 10; exfalso; [exact (Hr d x H)|exact (Hd f x H)].
    + exfalso. cbn [sub_of] in H.
      assert (Hm : schema_met E recon v g).
      { destruct Hg as [Hg|Hg]; [left; exact Hg|right]. destruct ph; [left; destruct Hg as [items [d [_ [_ Hg]]]]; exists d; exact Hg|right].
        destruct Hg as [Hg|Hg]; [contradiction|exact Hg]. }
      destruct (Hs g Hm) as [H1 H2]. apply escaping_exceptions in H.
      exact (tame_no_escape E desc recon ph true x g H1 H2 H).
Qed.

(** @example
(* The third version of a class with one. *)
Example C36_surrogate_own_exceptions_example :
  In ValueError (surrogate_exceptions Inbound)
  /\ process_gen (env_versions None) nodesc norecon 1 (Fld p0 (KSurrogate None)) false Inbound true []
       (VDict false [(VStr $"_", VStr $"s"); (VStr $"__version__", VInt 3)]) = Raise (XPy ValueError).
Proof. split; [cbn; auto|vm_compute; reflexivity]. Qed.
@end *)
