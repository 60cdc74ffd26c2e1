(** * Where errors sit and what they say (C35, C37). *)
(* @imports Spec Demo *)
From Coq Require Import ZifyBool ZifyN ZifyNat.
From Verif Require Import PyBaseFacts Induct Spec Demo ProcessFacts ScalarProofs StructFacts SeqProofs MapProofs
  StructProofs ConfProofs.

Definition own (path : list str) (e : err) : Prop := exists c tok, e = own_err c path tok.
(** Only with a token the field may use. *)
Definition own_of {F} (p : params) (k : kindP val F) (path : list str) (e : err) : Prop :=
  exists c tok, e = own_err c path tok /\ tells p k c tok.

Definition ordinary_kind {F} (k : kindP val F) : bool :=
  match k with KField | KError | KObject | KDefinition _ | KSurrogate _ => false | _ => true end.

Lemma own_own_of {F} p (k : kindP val F) path e : own_of p k path e -> own path e.
Proof. intros [c [tok [-> _]]]. eexists _, _. reflexivity. Qed.

Lemma tells_kmap {F G} (g : F -> G) p (k : kindP val F) c tok : tells p (kmap g k) c tok -> tells p k c tok.
Proof. destruct k; try exact (fun H => H). destruct d; exact (fun H => H). Qed.

(** Proves [own_of] for an explicit error. *)
Ltac tell :=
  eexists _, _; split; [reflexivity|]; unfold tells;
  first [ left; split; reflexivity
        | right; split; [reflexivity|]; left; split; [assumption|reflexivity]
        | right; split; [reflexivity|]; right; first [reflexivity|split; [discriminate|reflexivity]|auto; tauto] ].

Ltac split_raise H :=
  repeat (first
    [ discriminate H
    | match type of H with
      | Raise (XErr _) = Raise (XErr _) => injection H as H; subst; try tell
      | context [match ?x with _ => _ end] => destruct x eqn:?
      end ]).

Lemma or_invalid_own {A} anc (inj : A -> val) o e :
  or_invalid anc inj o = Raise (XErr e) -> e = own_err CInvalidType anc $"invalid".
Proof. unfold or_invalid, terr. destruct o; [discriminate|]. congruence. Qed.

Definition bounded {A} (mn mx : option A) (anc : list str) (lo hi : str) (e : err) : Prop :=
  mn <> None /\ e = own_err CValidation anc lo \/ mx <> None /\ e = own_err CValidation anc hi.

Lemma below_some {A} (lt : A -> A -> bool) x b : below lt x b = true -> b <> None.
Proof. destruct b; discriminate. Qed.
Lemma above_some {A} (lt : A -> A -> bool) x b : above lt x b = true -> b <> None.
Proof. destruct b; discriminate. Qed.
Lemma check_bounds_own {A} (lt : A -> A -> bool) anc mn mx x r e :
  check_bounds lt anc mn mx x r = Raise (XErr e) -> bounded mn mx anc $"minimum" $"maximum" e.
Proof.
  unfold check_bounds, verr, below, above, bounded. intros H.
  destruct mn as [m|]; [destruct (lt x m); [left; split; congruence|]|];
    (destruct mx as [m'|]; [destruct (lt m' x); [right; split; congruence|]|]); discriminate.
Qed.

Lemma check_length_own anc mn mx x r e :
  check_length anc mn mx x r = Raise (XErr e) -> bounded mn mx anc $"min_length" $"max_length" e.
Proof.
  unfold check_length, verr, below, above, bounded. intros H.
  destruct mn as [m|]; [destruct (Z.ltb x m); [left; split; congruence|]|];
    (destruct mx as [m'|]; [destruct (Z.ltb m' x); [right; split; congruence|]|]); discriminate.
Qed.

Lemma check_bounds_r_own {A} (lt : A -> A -> res bool) anc mn mx x r e :
  (forall a b y, lt a b <> Raise (XErr y)) ->
  check_bounds_r lt anc mn mx x r = Raise (XErr e) -> bounded mn mx anc $"minimum" $"maximum" e.
Proof.
  intros Hlt H. unfold check_bounds_r, verr in H. unfold bounded. apply bind_Raise in H. destruct H as [H|[b [Hb H]]].
  - destruct mn; [apply Hlt in H; contradiction|discriminate].
  - destruct b; [destruct mn; [left; split; congruence|discriminate]|].
    apply bind_Raise in H. destruct H as [H|[b [Hb' H]]].
    + destruct mx; [apply Hlt in H; contradiction|discriminate].
    + destruct b; [|discriminate]. destruct mx; [right; split; congruence|discriminate].
Qed.

Lemma dec_lt_own a b y : dec_lt a b <> Raise (XErr y).
Proof. destruct a, b; discriminate. Qed.
Lemma dt_lt_own L a b y : dt_lt L a b <> Raise (XErr y).
Proof. unfold dt_lt. destruct (dt_tz a), (dt_tz b); try destruct (tz_is _ _); discriminate. Qed.

Lemma unserialize_own {F} E recon p (k : kindP val F) anc v e :
  ordinary_kind k = true -> unserialize_value E recon k anc v = Raise (XErr e) -> own_of p k anc e.
Proof.
  intros Hk H. destruct k; cbn [unserialize_value ordinary_kind] in *; try discriminate;
    try (apply or_invalid_own in H; subst; tell);
    destruct v; try (apply or_invalid_own in H; subst; tell); unfold terr, py in H; split_raise H.
Qed.

Lemma veq_r_own L a b e : veq_r L a b <> Raise (XErr e).
Proof. unfold veq_r, py. destruct (_ || _); discriminate. Qed.

Lemma vmem_r_own L v l e : vmem_r L v l <> Raise (XErr e).
Proof.
  induction l as [|x l IH]; cbn; [discriminate|]. intros H. apply bind_Raise in H.
  destruct H as [H|[b [_ H]]]; [eapply veq_r_own, H|]. destruct b; [discriminate|exact (IH H)].
Qed.

Ltac by_bounds H := destruct H as [[? ->]|[? ->]]; tell.

Lemma validate_own {F} E p (k : kindP val F) anc v e :
  ordinary_kind k = true -> validate_value E k anc v = Raise (XErr e) -> own_of p k anc e.
Proof.
  intros Hk H. destruct k; cbn [validate_value ordinary_kind] in *; try discriminate.
  1, 2, 3, 8, 9, 11, 12, 13: destruct v; unfold terr, verr, py in H;
     try (apply check_length_own in H; by_bounds H); try (apply check_bounds_own in H; by_bounds H); split_raise H.
  - destruct v; try (unfold terr in H; injection H as <-; tell). apply bind_Raise in H. destruct H as [H|[d [_ H]]].
    + unfold dt_normalize, py in H. split_raise H.
    + apply check_bounds_r_own in H; [by_bounds H|apply dt_lt_own].
  - destruct v; try (unfold terr in H; injection H as <-; tell).
    apply check_bounds_r_own in H; [by_bounds H|apply dec_lt_own].
  - destruct v; try (unfold terr in H; injection H as <-; tell). apply bind_Raise in H. destruct H as [H|[x [_ H]]].
    + apply check_length_own in H. by_bounds H.
    + unfold verr in H. split_raise H.
  - apply bind_Raise in H. destruct H as [H|[x [_ H]]]; [apply vmem_r_own in H; contradiction|].
    unfold terr in H. split_raise H.
  - destruct v; try (unfold terr in H; injection H as <-; tell). apply bind_Raise in H. destruct H as [H|[x [_ H]]].
    + apply check_length_own in H. by_bounds H.
    + unfold verr in H. destruct pattern as [n|]; [|discriminate].
      destruct (e_pattern _ _ _); [discriminate|]. injection H as <-. eexists _, _. split; [reflexivity|].
      right. split; [reflexivity|]. right. right. right. split; [discriminate|reflexivity].
Qed.

Lemma is_null_own {F} L p (k : kindP val F) ig anc v e : is_null L p ig anc v = Raise (XErr e) -> own_of p k anc e.
Proof.
  unfold is_null. intros H. apply bind_Raise in H. destruct H as [H|[b [_ H]]].
  - destruct ig; [apply vmem_r_own in H; contradiction|discriminate].
  - unfold verr in H. destruct (_ || _); [|discriminate]. destruct (p_nonnull p) eqn:Hp; [|discriminate].
    injection H as <-. tell.
Qed.

Lemma serialize_own {F} E desc (k : kindP val F) v e :
  ordinary_kind k = true -> serialize_value E desc k v <> Raise (XErr e).
Proof.
  intros Hk H. destruct k; try discriminate; cbn in H; destruct v; try discriminate.
  destruct (tz_is _ _); [discriminate|]. destruct (astimezone _ _ _ _); discriminate.
Qed.

Lemma scalar_own {F} E desc recon p (k : kindP val F) ph ser anc v e :
  ordinary_kind k = true ->
  process_scalar E p k (unserialize_value E recon k) (serialize_value E desc k) ph ser anc v = Raise (XErr e) ->
  own_of p k anc e.
Proof.
  intros Hk H. unfold process_scalar in H.
  apply bind_Raise in H. destruct H as [H|[nul [_ H]]]; [eapply is_null_own, H|].
  destruct nul; [discriminate|].
  apply bind_Raise in H. destruct H as [H|[v1 [_ H]]].
  { destruct (ser && phase_eqb ph Inbound); [|discriminate]. eapply unserialize_own; eassumption. }
  assert (Hci : forall e, construct_invalid k anc = @Raise val (XErr e) -> own_of p k anc e).
  { intros e0 He. unfold construct_invalid, terr, py in He. destruct k; try discriminate He; injection He as <-; tell. }
  apply bind_Raise in H. destruct H as [H|[v2 [_ H]]].
  { destruct (preprocess E p k v1); [discriminate|]. apply Hci, H. }
  apply bind_Raise in H. destruct H as [H|[c [_ H]]].
  { destruct (is_none _); [discriminate|]. apply veq_r_own in H. contradiction. }
  destruct c; cbn [negb] in H; [|apply Hci, H].
  apply bind_Raise in H. destruct H as [H|[v3 [_ H]]]; [eapply validate_own; eassumption|].
  destruct (ser && phase_eqb ph Outbound); [|discriminate].
  destruct (serialize_value E desc k v3) as [|[x|x]] eqn:Hs; try discriminate.
  - exfalso. eapply serialize_own; eassumption.
  - destruct x; try discriminate. unfold verr in H. injection H as <-.
    destruct k; try discriminate Hk; try discriminate Hs; try (cbn in Hs; destruct v3; discriminate Hs). tell.
Qed.

(** Ordinary fields never return an error as a result. *)
Definition no_err (r : val) : Prop := forall e, r <> VErr e.

Lemma veq_err_r L x e : veq L x (VErr e) = false.
Proof. destruct x; reflexivity. Qed.

Lemma validate_no_err {F} E (k : kindP val F) anc v r :
  ordinary_kind k = true -> is_structural k = false -> validate_value E k anc v = Ok r -> no_err r.
Proof.
  intros Hk Hs H e ->. apply validate_sound in H; [|exact Hs]. destruct H as [H _]. destruct k; try discriminate; cbn in H;
    repeat match goal with
           | H : exists _, _ |- _ => destruct H
           | H : _ /\ _ |- _ => destruct H
           | H : _ \/ _ |- _ => destruct H
           end; try discriminate.
  rewrite (veq_err_r) in H0. discriminate.
Qed.

Lemma scalar_no_err {F} E desc recon p (k : kindP val F) ph ser anc v r :
  ordinary_kind k = true -> is_structural k = false ->
  process_scalar E p k (unserialize_value E recon k) (serialize_value E desc k) ph ser anc v = Ok r ->
  no_err r.
Proof.
  intros Hk Hs H. unfold process_scalar in H.
  apply bind_Ok in H. destruct H as [nul [_ H]]. destruct nul; [injection H as <-; intros e; discriminate|].
  apply bind_Ok in H. destruct H as [v1 [_ H]]. apply bind_Ok in H. destruct H as [v2 [_ H]].
  apply bind_Ok in H. destruct H as [c [_ H]].
  destruct (negb c); [unfold construct_invalid, terr, py in H; destruct k; discriminate|].
  apply bind_Ok in H. destruct H as [v3 [Hv H]]. apply validate_no_err in Hv; [|assumption..].
  destruct (ser && phase_eqb ph Outbound); [|injection H as <-; exact Hv].
  assert (Hser : serialize_value E desc k v3 = Ok r)
    by (destruct (serialize_value E desc k v3) as [|[|[]]]; try discriminate; exact H).
  clear H. intros e ->. destruct k; try discriminate; cbn in Hser; destruct v3; try discriminate;
    try (eapply Hv; reflexivity).
  destruct (tz_is _ _); [discriminate|]. destruct (astimezone _ _ _ _); discriminate.
Qed.

(** ** C35 *)

Section Located.
Variable E : env.
Let L := e_local E.

(** What is known about a child: its errors satisfy [Q] at their path, its results are no errors. *)
Definition child_ok (Q : list str -> err -> Prop) (c : child) : Prop :=
  forall ph ser anc v, anc <> [] ->
    match snd c ph ser anc v with
    | Ok r => no_err r
    | Raise (XErr e) => Q anc e
    | Raise (XPy _) => True
    end.

Lemma app_seg_nil {A} (l : list A) x : l ++ [x] <> [].
Proof. destruct l; discriminate. Qed.

Lemma wrap_outcome f r : wrap_undef E f r = r \/ exists x, wrap_undef E f r = py x.
Proof.
  unfold wrap_undef. destruct r as [|[|x]]; auto. destruct x; auto. destruct (undefined E f); eauto.
Qed.

Lemma recorded_child Q c ph ser anc v x :
  child_ok Q c -> anc <> [] ->
  recorded (wrap_undef E (fst c) (snd c ph ser anc v)) (VErr x) -> Q anc x.
Proof.
  intros Hc Ha H. specialize (Hc ph ser anc v Ha).
  destruct (wrap_outcome (fst c) (snd c ph ser anc v)) as [Hw|[y Hw]]; rewrite Hw in H.
  - destruct H as [H|[x' [H [= ->]]]]; rewrite H in Hc; [exfalso; eapply Hc; reflexivity|exact Hc].
  - destruct H as [H|[x' [H _]]]; discriminate.
Qed.

Lemma collect_child Q c ph ser anc v x b :
  child_ok Q c -> anc <> [] ->
  collect (wrap_undef E (fst c) (snd c ph ser anc v)) = Ok (VErr x, b) -> Q anc x.
Proof.
  intros Hc Ha H. apply (recorded_child Q c ph ser anc v x Hc Ha).
  destruct (wrap_undef E (fst c) (snd c ph ser anc v)) as [r|[e|e]]; cbn in H; try discriminate.
  - injection H as -> _. left. reflexivity.
  - injection H as -> _. right. eauto.
Qed.

Lemma nth_error_Forall2 {A B} (R : A -> B -> Prop) l m i b :
  Forall2 R l m -> nth_error m i = Some b -> exists a, nth_error l i = Some a /\ R a b.
Proof.
  intros H. revert i. induction H as [|x y l m Hxy H IH]; intros [|i] Hi; try discriminate.
  - injection Hi as <-. exists x. auto.
  - apply IH, Hi.
Qed.

Lemma seq_loop_located Q c ph ser anc l es b :
  child_ok Q c -> seq_loop E c ph ser anc 0 l = Ok (es, b) ->
  forall i x, nth_error es i = Some (VErr x) -> Q (anc ++ [index_seg i]) x.
Proof.
  intros Hc H i x Hx. rewrite seq_loop_outs in H. apply collect_all_ok in H. destruct H as [H _].
  destruct (nth_error_Forall2 _ _ _ _ _ H Hx) as [o [Ho Hr]].
  rewrite imap_nth in Ho. cbn [Nat.add] in Ho. destruct (nth_error l i) as [v|]; [|discriminate].
  injection Ho as <-. rewrite index_seg_eq in Hr.
  eapply recorded_child in Hr; [exact Hr|exact Hc|apply app_seg_nil].
Qed.

Lemma tuple_loop_located (Qs : list (list str -> err -> Prop)) cs ph ser anc i v es b :
  Forall2 child_ok Qs cs -> tuple_loop E cs ph ser anc i v = Ok (es, b) ->
  length es = length cs
  /\ forall j Q x, nth_error Qs j = Some Q -> nth_error es j = Some (VErr x) -> Q (anc ++ [index_seg (i + j)]) x.
Proof.
  intros Hc. revert i es b. induction Hc as [|Q c Qs cs Hc Hcs IH]; intros i es b H; cbn [tuple_loop] in H.
  - injection H as <- _. split; [reflexivity|]. intros [|j] Q x; discriminate.
  - apply bind_Ok in H. destruct H as [u [_ H]]. apply bind_Ok in H. destruct H as [[e b1] [He H]].
    apply bind_Ok in H. destruct H as [[es' b2] [Hes H]]. injection H as <- _.
    destruct (IH _ _ _ Hes) as [Hlen Hn]. cbn [length fst snd]. split; [congruence|].
    intros [|j] Q' x HQ Hx; cbn in HQ, Hx.
    + injection HQ as <-. injection Hx as ->. rewrite Nat.add_0_r. rewrite index_seg_eq in He.
      eapply collect_child in He; [exact He|exact Hc|apply app_seg_nil].
    + replace (i + S j)%nat with (S i + j)%nat by lia. eapply Hn; eassumption.
Qed.

Lemma dset_In k v l k' v' :
  In (k', v') (dset L k v l) -> In (k', v') l \/ v' = v /\ (k' = k \/ veq L k' k = true).
Proof.
  induction l as [|[a b] l IH]; cbn.
  - intros [H|[]]. injection H as <- <-. auto.
  - destruct (veq L a k) eqn:Ha; cbn.
    + intros [H|H]; [injection H as <- <-; auto|auto].
    + intros [H|H]; [auto|]. destruct (IH H) as [|]; auto.
Qed.

Lemma map_loop_located (Q : list str -> err -> Prop) cv ck ph ser anc items acc valid acc' valid' :
  child_ok Q cv ->
  (forall k x, In (k, VErr x) acc ->
     exists k' s, (k = k' \/ veq L k k' = true) /\ percent_s E k' = Some s /\ Q (anc ++ [key_segment s]) x) ->
  map_loop E cv ck ph ser anc items acc valid = Ok (acc', valid') ->
  forall k x, In (k, VErr x) acc' ->
     exists k' s, (k = k' \/ veq L k k' = true) /\ percent_s E k' = Some s /\ Q (anc ++ [key_segment s]) x.
Proof.
  intros Hc. revert acc valid. induction items as [|[name sub] items IH]; intros acc valid Hacc H; cbn [map_loop] in H.
  - injection H as <- _. exact Hacc.
  - apply bind_Ok in H. destruct H as [name' [_ H]]. apply bind_Ok in H. destruct H as [seg [Hseg H]].
    apply bind_Ok in H. destruct H as [[e b] [He H]]. destruct (hashable name'); [|discriminate].
    eapply IH; [|exact H]. intros k x Hin. apply dset_In in Hin. destruct Hin as [Hin|[Heq Hk]]; [apply Hacc, Hin|].
    cbn [fst] in Heq. subst e. rewrite key_seg_percent in Hseg. destruct (percent_s E name') as [s|] eqn:Hs; [|discriminate].
    injection Hseg as <-. exists name', s. split; [exact Hk|]. split; [exact Hs|].
    eapply collect_child in He; [exact He|exact Hc|apply app_seg_nil].
Qed.

Lemma map_required_located (P : val -> err -> Prop) anc req acc valid acc' valid' :
  (forall k x, In (k, VErr x) acc -> P k x \/ In k req /\ VErr x = token_error anc $"required") ->
  map_required E anc req acc valid = Ok (acc', valid') ->
  forall k x, In (k, VErr x) acc' -> P k x \/ In k req /\ VErr x = token_error anc $"required".
Proof.
  intros Hacc H. assert (Hincl : incl req req) by apply incl_refl. revert Hincl H. generalize req at 1 3 as r.
  intros r. revert acc valid Hacc. induction r as [|name r IH]; intros acc valid Hacc Hincl H; cbn [map_required] in H.
  - injection H as <- _. exact Hacc.
  - destruct (hashable name); [|discriminate]. destruct (dmem (e_local E) name acc) eqn:Hm.
    + eapply IH; [exact Hacc| |exact H]. intros z Hz. apply Hincl. right. exact Hz.
    + eapply IH; [| |exact H]; [|intros z Hz; apply Hincl; right; exact Hz].
      intros k x Hin. unfold dmem in Hm. destruct (dget (e_local E) name acc) eqn:Hg; [discriminate|].
      rewrite dset_new in Hin by exact Hg. apply in_app_or in Hin. destruct Hin as [Hin|[Hin|[]]]; [apply Hacc, Hin|].
      injection Hin as <- <-. right. split; [apply Hincl; left; reflexivity|reflexivity].
Qed.

Lemma sset_In k v l k' v' : In (k', v') (sset k v l) -> In (k', v') l \/ v' = v /\ k' = VStr k.
Proof.
  induction l as [|[a b] l IH]; cbn.
  - intros [H|[]]. injection H as <- <-. auto.
  - destruct a; cbn; try (intros [H|H]; [auto|destruct (IH H); auto]).
    destruct (str_eqb_spec k s) as [<-|]; cbn.
    + intros [H|H]; [injection H as <- <-; auto|auto].
    + intros [H|H]; [auto|]. destruct (IH H); auto.
Qed.

(** The entries of an error structure of a structure with definition [defn]. *)
Definition struct_entry (defn : list (str * child)) (QQ : str -> list str -> err -> Prop) (strict : bool)
  (anc : list str) (k : val) (x : err) : Prop :=
  (exists name, k = VStr name /\ In name (map fst defn) /\ QQ name (anc ++ [name_segment name]) x)
  \/ (exists name, k = VStr name /\ In name (map fst defn)) /\ VErr x = token_error anc $"required"
  \/ strict = true /\ VErr x = token_error anc $"unknown".

Lemma aget_In {A} k (v : A) l : aget k l = Some v -> In (k, v) l.
Proof.
  induction l as [|[a b] l IH]; cbn; [discriminate|]. destruct (str_eqb_spec k a) as [<-|]; [intros [= <-]; auto|auto].
Qed.

Lemma struct_loop_located (QQ : str -> list str -> err -> Prop) strict defn items partial ph ser anc order names acc valid ns acc' valid' :
  (forall k c, In (k, c) defn -> child_ok (QQ k) c) ->
  (forall k x, In (k, VErr x) acc -> struct_entry defn QQ strict anc k x) ->
  struct_loop E defn items partial ph ser anc order names acc valid = Ok (ns, acc', valid') ->
  forall k x, In (k, VErr x) acc' -> struct_entry defn QQ strict anc k x.
Proof.
  intros Hc. revert names acc valid. induction order as [|name order IH]; intros names acc valid Hacc H; cbn [struct_loop] in H.
  - injection H as _ <- _. exact Hacc.
  - destruct (aget name defn) as [c|] eqn:Hg; [|discriminate]. apply aget_In in Hg.
    assert (Hname : In name (map fst defn)) by (apply (in_map fst) in Hg; exact Hg).
    apply bind_Ok in H. destruct H as [dn [_ H]]. destruct dn as [| |v].
    + eapply IH; [|exact H]; exact Hacc.
    + eapply IH; [|exact H]. intros k x Hin. apply sset_In in Hin. destruct Hin as [Hin|[Heq ->]]; [apply Hacc, Hin|].
      injection Heq as ->. right. left. split; [eauto|reflexivity].
    + destruct (fparams E (fst c)) as [q|]; [|discriminate]. destruct (p_ignore_null q && is_none v).
      * eapply IH; [|exact H]; exact Hacc.
      * apply bind_Ok in H. destruct H as [[e b] [He H]].
        eapply IH; [|exact H]. intros k x Hin. apply sset_In in Hin. destruct Hin as [Hin|[Heq ->]]; [apply Hacc, Hin|].
        cbn [fst] in Heq. subst e. left. exists name. split; [reflexivity|]. split; [exact Hname|].
        eapply collect_child in He; [exact He|apply Hc; exact Hg|apply app_seg_nil].
Qed.

Lemma add_unknown_located (P : val -> err -> Prop) anc names acc :
  (forall k x, In (k, VErr x) acc -> P k x) ->
  (forall k, P k (own_err CValidation anc $"unknown")) ->
  forall k x, In (k, VErr x) (add_unknown E anc names acc) -> P k x.
Proof.
  unfold add_unknown. revert acc. induction names as [|a names IH]; intros acc Hacc Hun; cbn [fold_left]; [exact Hacc|].
  apply IH; [|exact Hun]. intros k x Hin. apply dset_In in Hin. destruct Hin as [Hin|[Heq _]]; [apply Hacc, Hin|].
  injection Heq as ->. apply Hun.
Qed.

Lemma struct_run_located (QQ : str -> list str -> err -> Prop) defn strict ko identity partial ph ser anc items :
  (forall k c, In (k, c) defn -> child_ok (QQ k) c) ->
  match struct_run E defn strict ko identity partial ph ser anc items with
  | Ok r => no_err r
  | Raise (XErr e) => exists o l, e = struct_err anc (VDict o l)
      /\ forall k x, In (k, VErr x) l -> struct_entry defn QQ strict anc k x
  | Raise (XPy _) => True
  end.
Proof.
  intros Hc. unfold struct_run.
  destruct (match ko with Some (o :: os) => _ | _ => _ end) as [order|x] eqn:Ho; cbn [bind].
  - destruct (struct_loop _ _ _ _ _ _ _ _ _ _ _) as [[[names acc] valid]|x] eqn:Hl; cbn [bind].
    + assert (Hacc := fun Hnil => struct_loop_located QQ strict _ _ _ _ _ _ _ _ _ _ _ _ _ Hc Hnil Hl).
      specialize (Hacc ltac:(intros ? ? [])).
      match goal with |- context [if ?b then _ else _] => destruct b end.
      * intros e He. discriminate He.
      * unfold serr. eexists _, _. split; [reflexivity|].
        destruct strict; [|exact Hacc]. apply add_unknown_located; [exact Hacc|].
        intros k. right. right. split; reflexivity.
    + destruct x as [e|]; [|exact I]. exfalso. clear Ho. revert Hl. generalize (map fst items) as names.
      generalize true as valid. generalize (@nil (val * val)) as acc.
      induction order as [|name order IH]; intros acc valid names Hl; cbn [struct_loop] in Hl; [discriminate|].
      destruct (aget name defn) as [c|]; [|discriminate].
      apply bind_Raise in Hl. destruct Hl as [Hl|[dn [_ Hl]]].
      * unfold decide, py in Hl.
        repeat match type of Hl with context [match ?b with _ => _ end] => destruct b; try discriminate Hl end.
      * destruct dn as [| |v]; try (eapply IH; exact Hl).
        destruct (fparams E (fst c)) as [q|]; [|discriminate Hl].
        destruct (p_ignore_null q && is_none v); [eapply IH; exact Hl|].
        apply bind_Raise in Hl. destruct Hl as [Hl|[y [_ Hl]]]; [|eapply IH; exact Hl].
        destruct (wrap_undef _ _ _) as [|[|]]; discriminate.
  - destruct x as [e|]; [|exact I]. exfalso. destruct ko as [[|o os]|]; try discriminate.
    unfold poly_order, py in Ho.
    repeat match type of Ho with context [match ?b with _ => _ end] => destruct b; try discriminate Ho end.
Qed.

End Located.

Definition fpath (f : field) (anc : list str) : list str :=
  match f with Fld p k => path_of p k anc | FUndef _ => anc end.

Lemma fpath_nonempty f anc : anc <> [] -> fpath f anc = anc.
Proof. intros H. destruct f; [reflexivity|]. unfold fpath, path_of. destruct anc; [contradiction|reflexivity]. Qed.

Lemma path_of_nonempty p k anc : path_of p k anc <> [].
Proof. unfold path_of. destruct anc; [|discriminate]. destruct (p_name p) as [[|]|]; discriminate. Qed.

Lemma union_loop_located E Q cs ph ser anc v :
  anc <> [] -> Forall (child_ok Q) cs ->
  match union_loop E cs ph ser anc v with
  | Ok r => no_err r
  | Raise (XErr e) => Q anc e \/ e = own_err CInvalidType anc $"invalid"
  | Raise (XPy _) => True
  end.
Proof.
  intros Ha. induction cs as [|c cs IH]; intros Hcs; cbn [union_loop].
  - right. reflexivity.
  - inversion Hcs as [|? ? Hc Hcs']; subst. specialize (IH Hcs'). specialize (Hc ph ser anc v Ha).
    destruct (wrap_outcome E (fst c) (snd c ph ser anc v)) as [Hw|[y Hw]]; rewrite Hw.
    + destruct (snd c ph ser anc v) as [r|[e|x]]; [exact Hc| |exact I].
      destruct (er_cls e); [left; exact Hc|left; exact Hc|exact IH].
    + exact I.
Qed.

Lemma ordinary_kind_spec p k : ordinary p k -> ordinary_kind k = true.
Proof. destruct k; cbn; try contradiction; reflexivity. Qed.

Lemma own_located E p k path e : own_of p k path e -> located E (Fld p k) path e.
Proof. intros [c [tok [-> Ht]]]. apply located_own, Ht. Qed.

Lemma error_locations_all E desc recon n f :
  throughout E ordinary f ->
  forall partial ph ser anc v, anc <> [] \/ (exists p k, f = Fld p k) ->
    match process_gen E desc recon n f partial ph ser anc v with
    | Ok r => no_err r
    | Raise (XErr e) => located E f (fpath f anc) e
    | Raise (XPy _) => True
    end.
Proof.
  intros [Hf Hu]. revert f Hf. induction n as [n IHn] using lt_wf_ind.
  intros f. induction f as [i|p k IH] using field_ind'; intros Hf partial ph ser anc v Ha.
  - rewrite process_FUndef. destruct (e_undef E i) as [[|q k]|] eqn:He; try exact I.
    destruct n as [|m]; [exact I|]. destruct Ha as [Ha|[? [? ?]]]; [|discriminate].
    specialize (IHn m ltac:(lia) (Fld q k) (Hu i _ He) partial ph ser anc v (or_introl Ha)).
    destruct (process_gen _ _ _ _ _ _ _ _ _ _) as [r|[e|x]]; [exact IHn| |exact I].
    cbn [fpath]. eapply located_placeholder; [exact He|]. rewrite fpath_nonempty in IHn by exact Ha. exact IHn.
  - assert (Hord := everywhere_top _ _ _ Hf). assert (Hok := ordinary_kind_spec _ _ Hord).
    rewrite process_Fld. unfold process_body. cbn [fpath].
    set (path0 := match anc with [] => _ | _ => _ end).
    assert (Hpe : path0 = path_of p k anc) by (apply path_of_eq, kind_type_kmap).
    clearbody path0. subst path0. clear Ha.
    assert (Hne := path_of_nonempty p k anc). set (path := path_of p k anc) in *. clearbody path.
    assert (Hsub : forall g, In g (subfields k) ->
              child_ok (located E g) (g, process_gen E desc recon n g false)).
    { intros g Hg ph' ser' anc' v' Ha'. cbn [snd].
      assert (H := IH g Hg (everywhere_sub _ _ _ _ Hf Hg) false ph' ser' anc' v' (or_introl Ha')).
      rewrite fpath_nonempty in H by exact Ha'. exact H. }
    assert (Hscal : forall {F} (k' : kindP val F), ordinary_kind k' = true -> is_structural k' = false ->
      (forall c tok, tells p k' c tok -> tells p k c tok) ->
      match process_scalar E p k' (unserialize_value E recon k') (serialize_value E desc k') ph ser path v with
      | Ok r => no_err r
      | Raise (XErr e) => located E (Fld p k) path e
      | Raise (XPy _) => True
      end).
    { intros F k' Hk1 Hk2 Hk3. destruct (process_scalar _ _ _ _ _ _ _ _ _) as [r|[e|x]] eqn:Hs; [| |exact I].
      - eapply scalar_no_err; eassumption.
      - apply own_located. apply scalar_own in Hs; [|exact Hk1]. destruct Hs as [c [tok [-> Ht]]].
        eexists _, _. split; [reflexivity|]. apply Hk3, Ht. }
    destruct k; cbn [kmap]; try discriminate Hok;
      try (apply Hscal; [reflexivity|reflexivity|exact (fun _ _ H => H)]).
    + (* map *)
      unfold process_map.
      destruct (is_null (e_local E) p None path v) as [nul|[e|x]] eqn:Hn; cbn [bind];
        [|apply own_located; eapply is_null_own, Hn|exact I].
      destruct nul; [intros e; discriminate|].
      destruct (as_dict v); [|apply own_located; tell].
      unfold pre_raw. cbn in Hord. rewrite Hord. cbn [bind].
      destruct (as_dict v) as [items|]; [|exact I].
      assert (Hc : child_ok (located E value) (value, process_gen E desc recon n value false))
        by (apply Hsub; destruct key; left; reflexivity).
      destruct (map_loop _ _ _ _ _ _ _ _ _) as [[acc valid]|x] eqn:Hl; cbn [bind].
      * assert (Hacc := fun Hnil => map_loop_located E (located E value) _ _ _ _ _ _ _ _ _ _ Hc Hnil Hl).
        specialize (Hacc ltac:(intros ? ? [])).
        destruct (match required_keys with Some l0 => _ | None => _ end) as [[acc2 valid2]|x] eqn:Hr; cbn [bind].
        -- cbn [fst snd]. destruct valid2; [intros e; discriminate|]. unfold serr.
           apply located_map. intros k x Hin.
           destruct required_keys as [req|].
           ++ eapply (map_required_located E (fun k x => exists k' s, (k = k' \/ veq (e_local E) k k' = true)
                        /\ percent_s E k' = Some s /\ located E value (path ++ [key_segment s]) x)) in Hr.
              ** destruct Hr as [Hr|[Hr1 Hr2]]; [left; exact Hr|right; split; [eauto|exact Hr2]].
              ** intros k1 x1 Hin1. left. apply Hacc, Hin1.
              ** exact Hin.
           ++ injection Hr as <- <-. left. apply Hacc, Hin.
        -- destruct x as [e|]; [|exact I]. exfalso. destruct required_keys as [req|]; [|discriminate].
           cbn [fst snd] in Hr. clear - Hr. revert acc valid Hr. induction req as [|name req IHr]; intros acc valid Hr; cbn in Hr; [discriminate|].
           destruct (hashable name); [|discriminate]. destruct (dmem _ _ _); eapply IHr; exact Hr.
      * destruct x as [e|]; [|exact I].
        assert (Hown : own_of p (KMap value key required_keys) path e); [|apply own_located, Hown].
        clear - Hl. revert Hl. generalize true as b. generalize (@nil (val * val)) as acc.
        induction items as [|[name sub] items IHi]; intros acc b Hl; cbn [map_loop] in Hl; [discriminate|].
        apply bind_Raise in Hl. destruct Hl as [Hl|[name' [_ Hl]]].
        -- destruct key as [kf|]; cbn [option_map] in Hl.
           ++ apply bind_Raise in Hl. destruct Hl as [Hl|[seg [_ Hl]]].
              ** rewrite key_seg_percent in Hl. destruct (percent_s E name); discriminate.
              ** cbn [snd] in Hl. destruct (process_gen _ _ _ _ _ _ _ _ _ _) as [|[|]]; try discriminate. unfold verr in Hl. injection Hl as <-. tell.
           ++ destruct name; try discriminate Hl; unfold verr in Hl; injection Hl as <-; tell.
        -- apply bind_Raise in Hl. destruct Hl as [Hl|[seg [_ Hl]]].
           ++ rewrite key_seg_percent in Hl. destruct (percent_s E name'); discriminate.
           ++ apply bind_Raise in Hl. destruct Hl as [Hl|[x [_ Hl]]].
              ** destruct (wrap_undef _ _ _) as [|[|]]; discriminate.
              ** destruct (hashable name'); [|discriminate]. eapply IHi; exact Hl.
    + (* sequence *)
      unfold process_sequence.
      destruct (is_null (e_local E) p None path v) as [nul|[e|x]] eqn:Hn; cbn [bind];
        [|apply own_located; eapply is_null_own, Hn|exact I].
      destruct nul; [intros e; discriminate|].
      destruct v; try (apply own_located; tell).
      unfold pre_raw. cbn in Hord. rewrite Hord. cbn [bind py_iter].
      destruct (below _ _ _) eqn:Hb; [apply below_some in Hb; apply own_located; tell|].
      destruct (above _ _ _) eqn:Hb'; [apply above_some in Hb'; apply own_located; tell|].
      destruct (seq_loop _ _ _ _ _ _ _) as [[es b]|x] eqn:Hl; cbn [bind fst snd].
      * destruct b; cbn [negb].
        -- destruct unique; [|intros e; discriminate].
           destruct (forallb hashable es); [|exact I].
           destruct (has_dup E es); [apply own_located; tell|intros e; discriminate].
        -- unfold serr. apply located_sequence. eapply seq_loop_located; [|exact Hl]. apply Hsub. left. reflexivity.
      * rewrite seq_loop_outs in Hl. apply collect_all_raise in Hl. destruct Hl as [? [? [? [_ [_ ->]]]]]. exact I.
    + (* structure *)
      unfold process_structure.
      destruct (is_null (e_local E) p None path v) as [nul|[e|x]] eqn:Hn; cbn [bind];
        [|apply own_located; eapply is_null_own, Hn|exact I].
      destruct nul; [intros e; discriminate|].
      destruct (as_dict v); [|apply own_located; tell].
      destruct (pre_raw E p v) as [v1|]; cbn [bind]; [|apply own_located; tell].
      destruct (as_dict v1) as [items|]; [|exact I].
      assert (Hrun : forall d0 identity, (forall kf, In kf d0 -> In (snd kf) (subfields (KStructure d strict key_order : kind))) ->
                match struct_run E (map (fun kf => (fst kf, (snd kf, process_gen E desc recon n (snd kf) false))) d0)
                        strict key_order identity partial ph ser path items with
                | Ok r => no_err r
                | Raise (XErr e) => located E (Fld p (KStructure (SPlain d0) strict key_order)) path e
                | Raise (XPy _) => True
                end).
      { intros d0 identity Hd0.
        assert (Hr := struct_run_located E (fun name anc x => exists f, In (name, f) d0 /\ located E f anc x)
                        (map (fun kf => (fst kf, (snd kf, process_gen E desc recon n (snd kf) false))) d0)
                        strict key_order identity partial ph ser path items).
        match type of Hr with ?A -> _ => assert (HA : A) end.
        { intros k c Hin. apply in_map_iff in Hin. destruct Hin as [[k1 f1] [Heq Hin]]. injection Heq as <- <-.
          intros ph' ser' anc' v' Ha'. specialize (Hsub f1 (Hd0 _ Hin) ph' ser' anc' v' Ha'). cbn [snd fst] in *.
          destruct (process_gen _ _ _ _ _ _ _ _ _ _) as [r|[e|x]]; try exact Hsub. exists f1. auto. }
        specialize (Hr HA). clear HA.
        destruct (struct_run _ _ _ _ _ _ _ _ _ _) as [r|[e|x]]; [exact Hr| |exact I].
        destruct Hr as [o [l0 [-> Hr]]]. apply located_structure. intros k x Hin.
        destruct (Hr k x Hin) as [[name [-> [_ [f0 [H1 H2]]]]]|[[[name [-> H1]] H2]|H1]].
        - left. exists name, f0. auto.
        - right. left. split; [|exact H2]. exists name. split; [reflexivity|]. rewrite map_map in H1. exact H1.
        - right. right. exact H1. }
      destruct d as [d|on vs]; cbn [sdef_map].
      * apply Hrun. intros kf Hkf. cbn [subfields sdef_fields]. apply in_map, Hkf.
      * cbn [fst]. destruct (fparams E on) as [q|] eqn:Hq; [|exact I]. apply defined_fparams in Hq.
        assert (Hgo : forall ident,
          match (match p_name q with
                 | None => py TypeError
                 | Some nm =>
                     do ident' <- process_gen E desc recon n on false ph ser (path ++ [$"." ++ nm]) ident;
                     if hashable ident' then
                       match find (fun vd => veq (e_local E) (fst vd) ident')
                               (map (fun vl => (fst vl, map (fun kf => (fst kf, (snd kf, process_gen E desc recon n (snd kf) false))) (snd vl))) vs) with
                       | Some (_, (kf :: rest)) => struct_run E (kf :: rest) strict key_order ident' partial ph ser path items
                       | _ => verr path $"unrecognized"
                       end
                     else py TypeError
                 end) with
          | Ok r => no_err r
          | Raise (XErr e) => located E (Fld p (KStructure (SPoly on vs) strict key_order)) path e
          | Raise (XPy _) => True
          end).
        { intros ident. destruct (p_name q) as [nm|] eqn:Hnm; [|exact I].
          assert (Hon := Hsub on (or_introl eq_refl) ph ser (path ++ [$"." ++ nm]) ident (app_seg_nil _ _)).
          cbn [snd] in Hon. destruct (process_gen E desc recon n on false ph ser (path ++ [$"." ++ nm]) ident) as [y|[e|x]]; cbn [bind];
            [|eapply located_discriminator; eassumption|exact I].
          destruct (hashable y); [|exact I].
          rewrite (find_map_snd (fun a => veq (e_local E) a y)).
          destruct (find (fun vd => veq (e_local E) (fst vd) y) vs) as [[vk d]|] eqn:Hfind;
            [|apply own_located; tell].
          cbn [option_map fst snd]. apply find_some in Hfind. destruct Hfind as [Hin _].
          assert (Hr := Hrun d y). match type of Hr with ?A -> _ => assert (HA : A) end.
          { intros kf Hkf. cbn [subfields sdef_fields]. right. apply in_flat_map. exists (vk, d).
            split; [exact Hin|]. apply in_map, Hkf. }
          specialize (Hr HA). destruct d as [|kf0 d]; cbn [map] in *; [apply own_located; tell|].
          destruct (struct_run _ _ _ _ _ _ _ _ _ _) as [r|[e|x]]; [exact Hr| |exact I].
          eapply located_variant; eassumption. }
        match goal with |- context [match ?x with None => _ | Some _ => _ end] => destruct x as [ident|] end;
          [|apply own_located; tell].
        destruct (is_none ident) eqn:Hni.
        -- destruct ident; try discriminate. apply own_located. tell.
        -- specialize (Hgo ident). destruct ident; try discriminate Hni; exact Hgo.
    + (* tuple *)
      unfold process_tuple.
      destruct (is_null (e_local E) p None path v) as [nul|[e|x]] eqn:Hn; cbn [bind];
        [|apply own_located; eapply is_null_own, Hn|exact I].
      destruct nul; [intros e; discriminate|]. clear Hn.
      assert (Hgo : forall l0, py_iter v = Some l0 ->
        match (if Nat.eqb (length l0) (length (map (fun g => (g, process_gen E desc recon n g false)) values))
               then do r <- tuple_loop E (map (fun g => (g, process_gen E desc recon n g false)) values) ph ser path 0 v;
                    if snd r then Ok (VTuple (fst r)) else serr path (VList (fst r))
               else verr path $"length") with
        | Ok r => no_err r
        | Raise (XErr e) => located E (Fld p (KTuple values)) path e
        | Raise (XPy _) => True
        end).
      { intros l0 Hl0. destruct (Nat.eqb _ _) eqn:Hlen; [|apply own_located; tell].
        destruct (tuple_loop _ _ _ _ _ _ _) as [[es b]|x] eqn:Hl; cbn [bind fst snd].
        - destruct b; [intros e; discriminate|]. unfold serr.
          apply (tuple_loop_located E (map (fun g => located E g) values)) in Hl.
          + destruct Hl as [Hles Hl]. rewrite map_length in Hles. apply located_tuple; [exact Hles|].
            intros i f x Hf' Hx. apply (Hl i); [|exact Hx]. rewrite nth_error_map, Hf'. reflexivity.
          + assert (Hs : forall g, In g values -> child_ok (located E g) (g, process_gen E desc recon n g false))
              by (intros g Hg; apply Hsub, Hg).
            clear - Hs. induction values as [|g gs IHg]; cbn; constructor; [apply Hs; left; reflexivity|].
            apply IHg. intros g' Hg'. apply Hs. right. exact Hg'.
        - destruct x as [e|]; [|exact I]. exfalso. clear - Hl. revert Hl. generalize 0%nat as i.
          generalize (map (fun g => (g, process_gen E desc recon n g false)) values) as cs.
          induction cs as [|c cs IHc]; intros i Hl; cbn [tuple_loop] in Hl; [discriminate|].
          apply bind_Raise in Hl. destruct Hl as [Hl|[u [_ Hl]]].
          { unfold py_index, py in Hl.
            repeat match type of Hl with context [match ?b with _ => _ end] => destruct b; try discriminate Hl end. }
          apply bind_Raise in Hl. destruct Hl as [Hl|[x [_ Hl]]]; [destruct (wrap_undef _ _ _) as [|[|]]; discriminate|].
          apply bind_Raise in Hl. destruct Hl as [Hl|[r [_ Hl]]]; [eapply IHc; exact Hl|discriminate]. }
      unfold pre_raw. cbn in Hord. rewrite Hord.
      destruct v; try (apply own_located; tell); cbn [bind py_iter]; apply Hgo; reflexivity.
    + (* union *)
      unfold process_union.
      destruct (is_null (e_local E) p None path v) as [nul|[e|x]] eqn:Hn; cbn [bind];
        [|apply own_located; eapply is_null_own, Hn|exact I].
      destruct nul; [intros e; discriminate|].
      assert (Hl := union_loop_located E (fun a e => exists g, In g fields /\ located E g a e)
                      (map (fun g => (g, process_gen E desc recon n g false)) fields) ph ser path v Hne).
      match type of Hl with ?A -> _ => assert (HA : A) end.
      { apply Forall_forall. intros c Hc. apply in_map_iff in Hc. destruct Hc as [g [<- Hg]].
        intros ph' ser' anc' v' Ha'. specialize (Hsub g Hg ph' ser' anc' v' Ha'). cbn [snd] in *.
        destruct (process_gen _ _ _ _ _ _ _ _ _ _) as [r|[e|x]]; try exact Hsub. exists g. auto. }
      specialize (Hl HA). destruct (union_loop _ _ _ _ _ _) as [r|[e|x]]; [exact Hl| |exact I].
      destruct Hl as [[g [Hg Hl]]|Hl]; [eapply located_union; eassumption|subst; apply own_located; tell].
Qed.

(** @prop C35 Every error that escapes from an ordinary field names the path of the field, and every
    error nested in it, at any depth, names the path of keys and indices at which it sits, following
    the schema - except that missing and unknown keys are reported under the path of their
    container; and each carries a token that its field may use.  (See [located] and [tells] in
    Spec.v.) *)
Lemma error_locations_partial :
  forall E desc recon n p k partial ph ser anc v e,
    throughout E ordinary (Fld p k) ->
    process_gen E desc recon n (Fld p k) partial ph ser anc v = Raise (XErr e) ->
    located E (Fld p k) (path_of p k anc) e.
Proof.
  intros E desc recon n p k partial ph ser anc v e Hf H.
  assert (Hl := error_locations_all E desc recon n (Fld p k) Hf partial ph ser anc v).
  rewrite H in Hl. apply Hl. right. eauto.
Qed.

(** @prop C35 As stated the claim fails: the error for a missing required key sits at the key but
    names the path of the structure. *)
Lemma error_locations_refuted :
  exists E desc recon n p k v path o l x,
    process_gen E desc recon n (Fld p k) false Inbound false [] v
      = fails_with path (VDict o l)
    /\ In (VStr $"a", VErr x) l
    /\ er_identity x <> path ++ [name_segment $"a"].
Proof.
  exists env0, nodesc, norecon, O, p0, (KStructure (SPlain [($"a", Fld p_req KBoolean)]) true None),
    (VDict false []), [$"(structure)"], false, [(VStr $"a", token_error [$"(structure)"] $"required")],
    (own_err CValidation [$"(structure)"] $"required").
  split; [reflexivity|]. split; [left; reflexivity|discriminate].
Qed.

(** @example
(* A text where an integer is expected, in a sequence under a key. *)
Example C35_example :
  let f := KStructure (SPlain [($"a", Fld p0 (KSequence (Fld p0 (KInteger None None)) None None false))]) true None in
  throughout env0 ordinary (Fld p0 f)
  /\ run0 (Fld p0 f) Inbound false (VDict false [(VStr $"a", VList [VInt 1; VStr $"x"])])
     = fails_with [$"(structure)"]
         (VDict false [(VStr $"a", VErr (struct_err [$"(structure)"; $".a"]
            (VList [VInt 1; VErr (own_err CInvalidType [$"(structure)"; $".a"; $"[1]"] $"invalid")])))]).
Proof.
  split; [|reflexivity]. split; [|discriminate]. constructor; [exact I|]. intros g [<-|[]].
  constructor; [reflexivity|]. intros g [<-|[]]. constructor; [exact I|intros g []].
Qed.
@end *)

(** ** C37 *)

Lemma own_reason path e : own path e -> has_reason e.
Proof. intros [c [tok ->]]. eapply reason_own. left. reflexivity. Qed.

Section Reason.
Variable E : env.
Let L := e_local E.

Definition child_reason (c : child) : Prop :=
  forall ph ser anc v e, anc <> [] -> proper L v -> snd c ph ser anc v = Raise (XErr e) -> has_reason e.

(** The child raises its error, or the entry is a result. *)
Lemma collect_false c ph ser anc v y :
  child_reason c -> anc <> [] -> proper L v ->
  collect (wrap_undef E (fst c) (snd c ph ser anc v)) = Ok (y, false) ->
  exists x, y = VErr x /\ has_reason x.
Proof.
  intros Hc Ha Hv H.
  destruct (wrap_outcome E (fst c) (snd c ph ser anc v)) as [Hw|[z Hw]]; rewrite Hw in H; [|discriminate].
  destruct (snd c ph ser anc v) as [r|[e|e]] eqn:Hs; cbn in H; try discriminate.
  injection H as <-. exists e. split; [reflexivity|]. eapply Hc; eassumption.
Qed.

Lemma seq_loop_reason c ph ser anc i l es :
  child_reason c -> Forall (proper L) l ->
  seq_loop E c ph ser anc i l = Ok (es, false) ->
  exists x, In (VErr x) es /\ has_reason x.
Proof.
  intros Hc. revert i es. induction l as [|v l IH]; intros i es Hl H; cbn [seq_loop] in H; [discriminate|].
  inversion Hl as [|? ? Hv Hl']; subst.
  apply bind_Ok in H. destruct H as [[y b1] [Hy H]]. apply bind_Ok in H. destruct H as [[ys b2] [Hys H]].
  cbn [fst snd] in H. injection H as <- Hb. destruct b1; cbn in Hb.
  - subst b2. destruct (IH _ _ Hl' Hys) as [x [Hx Hr]]. exists x. split; [right; exact Hx|exact Hr].
  - destruct (collect_false c ph ser _ v y Hc (app_seg_nil _ _) Hv Hy) as [x [-> Hr]].
    exists x. split; [left; reflexivity|exact Hr].
Qed.

Lemma tuple_loop_reason cs ph ser anc i v es :
  Forall child_reason cs -> (forall j u, py_index E v j = Ok u -> proper L u) ->
  tuple_loop E cs ph ser anc i v = Ok (es, false) ->
  exists x, In (VErr x) es /\ has_reason x.
Proof.
  intros Hcs Hv. revert i es. induction Hcs as [|c cs Hc Hcs IH]; intros i es H; cbn [tuple_loop] in H; [discriminate|].
  apply bind_Ok in H. destruct H as [u [Hu H]].
  apply bind_Ok in H. destruct H as [[y b1] [Hy H]]. apply bind_Ok in H. destruct H as [[ys b2] [Hys H]].
  cbn [fst snd] in H. injection H as <- Hb. destruct b1; cbn in Hb.
  - subst b2. destruct (IH _ _ Hys) as [x [Hx Hr]]. exists x. split; [right; exact Hx|exact Hr].
  - destruct (collect_false c ph ser _ u y Hc (app_seg_nil _ _) (Hv _ _ Hu) Hy) as [x [-> Hr]].
    exists x. split; [left; reflexivity|exact Hr].
Qed.

Definition has_bad (l : list (val * val)) : Prop := exists k x, In (k, VErr x) l /\ has_reason x.

Lemma dset_bad k x l : has_reason x -> has_bad l -> has_bad (dset L k (VErr x) l).
Proof.
  intros Hx. induction l as [|[a b] l IH]; intros [k0 [x0 [Hin Hr]]]; cbn; [destruct Hin|].
  destruct (veq L a k).
  - exists a, x. split; [left; reflexivity|exact Hx].
  - destruct Hin as [Heq|Hin].
    + injection Heq as -> ->. exists k0, x0. split; [left; reflexivity|exact Hr].
    + destruct IH as [k1 [x1 [H1 H2]]]; [exists k0, x0; auto|]. exists k1, x1. split; [right; exact H1|exact H2].
Qed.

Lemma dset_In_new k v l : exists k', In (k', v) (dset L k v l).
Proof.
  induction l as [|[a b] l IH]; cbn; [exists k; left; reflexivity|].
  destruct (veq L a k); [exists a; left; reflexivity|]. destruct IH as [k' H]. exists k'. right. exact H.
Qed.

Lemma map_required_reason anc req acc valid acc' :
  (valid = false -> has_bad acc) ->
  map_required E anc req acc valid = Ok (acc', false) -> has_bad acc'.
Proof.
  revert acc valid. induction req as [|name req IH]; intros acc valid Hacc H; cbn [map_required] in H.
  - injection H as <- ->. apply Hacc. reflexivity.
  - destruct (hashable name); [|discriminate]. destruct (dmem _ _ _); [eapply IH; eassumption|].
    eapply IH; [|exact H]. intros _. destruct (dset_In_new name (VErr (own_err CValidation anc $"required")) acc) as [k' Hk].
    eexists k', _. split; [exact Hk|]. eapply own_reason. eexists _, _. reflexivity.
Qed.

Lemma add_unknown_reason anc names acc :
  has_bad acc \/ names <> [] -> has_bad (add_unknown E anc names acc).
Proof.
  unfold add_unknown.
  assert (Hown : has_reason (own_err CValidation anc $"unknown")) by (eapply own_reason; eexists _, _; reflexivity).
  revert acc. induction names as [|a names IH]; intros acc H; cbn [fold_left].
  - destruct H as [H|H]; [exact H|contradiction].
  - apply IH. left. destruct H as [H|_]; [apply dset_bad; assumption|].
    destruct (dset_In_new a (VErr (own_err CValidation anc $"unknown")) acc) as [k' Hk].
    eexists k', _. split; [exact Hk|exact Hown].
Qed.

Lemma distinct_images (R : val -> val -> Prop) ks rs :
  (forall k1 k2 r1 r2, R k1 r1 -> R k2 r2 -> veq L k1 k2 = false -> veq L r1 r2 = false) ->
  Forall2 R ks rs -> distinct L ks -> distinct L rs.
Proof.
  intros HR H. induction H as [|k r ks rs Hkr H IH]; [trivial|]. cbn [distinct]. intros [H1 H2].
  split; [|apply IH, H2]. intros r' Hr'. clear IH H2.
  assert (Hex : exists k', In k' ks /\ R k' r').
  { clear - H Hr'. induction H as [|a b l m Hab H IH]; [destruct Hr'|].
    destruct Hr' as [<-|Hr']; [exists a; split; [left; reflexivity|exact Hab]|].
    destruct (IH Hr') as [k' [Hk Hk']]. exists k'. split; [right; exact Hk|exact Hk']. }
  destruct Hex as [k' [Hk' HR']]. eapply HR; [exact Hkr|exact HR'|apply H1, Hk'].
Qed.

Lemma map_loop_reason (cv : child) (ck : option child) ph ser anc items acc' :
  child_reason cv ->
  match ck with
  | Some c => forall a1 a2 k1 k2 r1 r2, snd c ph ser a1 k1 = Ok r1 -> snd c ph ser a2 k2 = Ok r2 ->
                veq L k1 k2 = false -> veq L r1 r2 = false
  | None => True
  end ->
  distinct L (map fst items) -> (forall kv, In kv items -> proper L (snd kv)) ->
  map_loop E cv ck ph ser anc items [] true = Ok (acc', false) -> has_bad acc'.
Proof.
  intros Hcv Hck Hd Hp H. rewrite map_loop_traverse in H. apply bind_Ok in H. destruct H as [rs [Ht H]].
  injection H as Hset Hval. apply traverse_ok in Ht.
  assert (Hdr : distinct L (map fst (map fst rs))).
  { eapply (distinct_images (fun k r => match ck with
                                        | Some c => exists a, snd c ph ser a k = Ok r
                                        | None => r = k
                                        end)); [| |exact Hd].
    - intros k1 k2 r1 r2 H1 H2 Hv. destruct ck as [c|].
      + destruct H1 as [a1 H1], H2 as [a2 H2]. eapply Hck; eassumption.
      + subst. exact Hv.
    - clear - Ht. induction Ht as [|kv [[k' e] b] items rs H Ht IH]; cbn [map]; constructor; [|exact IH].
      unfold map_step in H. apply bind_Ok in H. destruct H as [name' [Hn H]].
      apply bind_Ok in H. destruct H as [seg [_ H]]. apply bind_Ok in H. destruct H as [x [_ H]].
      destruct (hashable name'); [|discriminate]. injection H as <- <- <-. cbn [fst].
      destruct ck as [c|].
      + apply bind_Ok in Hn. destruct Hn as [sg [_ Hn]]. exists (anc ++ [sg]).
        destruct (snd c ph ser (anc ++ [sg]) (fst kv)) as [|[|]]; [exact Hn|discriminate|discriminate].
      + destruct (fst kv); try discriminate. injection Hn as <-. reflexivity. }
  rewrite set_all_new in Hset by exact Hdr. cbn [app] in Hset. subst acc'.
  cbn [andb] in Hval. clear Hdr Hd.
  induction Ht as [|kv [[k' e] b] items rs H Ht IH]; [discriminate|].
  cbn [forallb snd] in Hval. destruct b.
  - destruct IH as [k [x [Hin Hr]]]; [intros kv' Hkv'; apply Hp; right; exact Hkv'|exact Hval|].
    exists k, x. split; [right; exact Hin|exact Hr].
  - unfold map_step in H. apply bind_Ok in H. destruct H as [name' [Hn H]].
    apply bind_Ok in H. destruct H as [seg [_ H]]. apply bind_Ok in H. destruct H as [[y b] [Hy H]].
    destruct (hashable name'); [|discriminate]. injection H as <- <- ->.
    destruct (collect_false cv ph ser _ (snd kv) y Hcv (app_seg_nil _ _) (Hp kv (or_introl eq_refl)) Hy) as [x [-> Hr]].
    exists name', x. split; [left; reflexivity|exact Hr].
Qed.

Lemma struct_run_reason defn strict ko identity partial ph ser anc items e :
  (forall k c, In (k, c) defn -> child_reason c /\ forall q, fparams E (fst c) = Some q -> proper L (p_default q)) ->
  NoDup (map fst defn) -> match ko with Some o => NoDup o | None => True end ->
  (ko = None \/ identity = VNone) ->
  (forall kv, In kv items -> proper L (snd kv)) ->
  struct_run E defn strict ko identity partial ph ser anc items = Raise (XErr e) -> has_reason e.
Proof.
  intros Hc Hnd Hko Hid Hp H. unfold struct_run in H.
  set (order := match ko with Some (o :: os) => o :: os | _ => map fst defn end).
  assert (Hord : match ko with Some (o :: os) => poly_order (o :: os) identity | _ => Ok (map fst defn) end = Ok order).
  { unfold order. destruct ko as [[|o os]|]; try reflexivity. destruct Hid as [|Hid]; [discriminate|]. subst. reflexivity. }
  assert (Hndo : NoDup order) by (unfold order; destruct ko as [[|o os]|]; assumption).
  clearbody order. rewrite Hord in H. cbn [bind] in H.
  rewrite struct_loop_traverse in H; [|exact Hndo|intros; apply kmem_sget|reflexivity].
  destruct (traverse _ order) as [rs|x] eqn:Ht; cbn [bind] in H.
  - cbn [app] in H.
    set (bad := fold_left (fun ns k => kdel k ns) order (map fst items)) in H.
    destruct (true && fine rs && (negb strict || match bad with [] => true | _ => false end)) eqn:Hv; [discriminate|].
    unfold serr in H. injection H as <-.
    assert (Hb : has_bad (if strict then add_unknown E anc bad (kept order rs) else kept order rs)).
    { assert (Hk : fine rs = false -> has_bad (kept order rs)).
      { intros Hfine. clear Hv. apply traverse_ok in Ht. clear Hndo Hord bad.
        induction Ht as [|k o order rs Hs Ht IH]; [discriminate|].
        cbn [fine forallb] in Hfine. unfold has_bad, kept. cbn [combine flat_map fst snd].
        destruct o as [[y b]|].
        - cbn [fst snd] in *. destruct b.
          + destruct (IH Hfine) as [k0 [x [Hin Hr]]]. exists k0, x. split; [right; exact Hin|exact Hr].
          + assert (Hy : exists x, y = VErr x /\ has_reason x).
            { unfold sstep in Hs. destruct (aget k defn) as [c|] eqn:Hg; [|discriminate]. apply aget_In in Hg.
              apply bind_Ok in Hs. destruct Hs as [dn [Hdn Hs]]. destruct dn as [| |v]; [discriminate| |].
              - injection Hs as <-. eexists. split; [reflexivity|]. eapply own_reason. eexists _, _. reflexivity.
              - destruct (fparams E (fst c)) as [q|] eqn:Hq; [|discriminate].
                destruct (p_ignore_null q && is_none v); [discriminate|].
                apply bind_Ok in Hs. destruct Hs as [z [Hz Hs]]. injection Hs as ->.
                destruct (Hc k c Hg) as [Hc1 Hc2].
                eapply collect_false; [exact Hc1| | |exact Hz]; [apply app_seg_nil|].
                unfold decide in Hdn. destruct (sget k items) as [w|] eqn:Hw.
                + injection Hdn as ->. apply sget_In in Hw. exact (Hp _ Hw).
                + destruct partial; [discriminate|]. rewrite Hq in Hdn.
                  destruct (phase_eqb ph Inbound && negb (is_none (p_default q))).
                  * injection Hdn as <-. apply Hc2. exact Hq.
                  * destruct (p_required q); discriminate. }
            destruct Hy as [x [-> Hr]]. exists (VStr k), x. split; [left; reflexivity|exact Hr].
        - destruct (IH Hfine) as [k0 [x [Hin Hr]]]. exists k0, x. split; [exact Hin|exact Hr]. }
      destruct (fine rs); cbn in Hv.
      - destruct strict; [|discriminate]. apply add_unknown_reason. right. cbn in Hv. destruct bad; discriminate.
      - destruct strict; [apply add_unknown_reason; left|]; apply Hk; reflexivity. }
    destruct Hb as [k [x [Hin Hr]]]. eapply reason_nested; [reflexivity| |exact Hr]. exists k. exact Hin.
  - exfalso. injection H as ->. apply traverse_raise in Ht. destruct Ht as [pre [k [post [_ [Hk _]]]]].
    unfold sstep in Hk. destruct (aget k defn) as [c|]; [|discriminate].
    apply bind_Raise in Hk. destruct Hk as [Hk|[dn [_ Hk]]].
    + unfold decide, py in Hk.
      repeat match type of Hk with context [match ?b with _ => _ end] => destruct b; try discriminate Hk end.
    + destruct dn; try discriminate. destruct (fparams E (fst c)); [|discriminate].
      destruct (_ && _); [discriminate|]. apply bind_Raise in Hk. destruct Hk as [Hk|[y [_ Hk]]]; [|discriminate].
      destruct (wrap_undef _ _ _) as [|[|]]; discriminate.
Qed.
End Reason.

Lemma proper_dict L v l : proper L v -> as_dict v = Some l ->
  distinct L (map fst l) /\ forall kv, In kv l -> proper L (snd kv).
Proof. intros H. inversion H as [w H1 H2]; subst. apply H1. Qed.

Lemma proper_list L v l : proper L v -> v = VList l \/ v = VTuple l -> Forall (proper L) l.
Proof. intros H Hv. inversion H as [w H1 H2]; subst. apply Forall_forall. exact (H2 l Hv). Qed.

(** Used by the example: a Text field that does not strip returns its input. *)
Lemma text_plain_result E desc recon n ph ser a k r :
  process_gen E desc recon n (Fld p0 (KText None None None false)) false ph ser a k = Ok r -> r = k.
Proof.
  rewrite process_basic by reflexivity. intros H. unfold process_scalar in H.
  apply bind_Ok in H. destruct H as [nul [Hn H]]. destruct nul.
  - injection H as <-. unfold is_null in Hn. destruct k; try discriminate. reflexivity.
  - apply bind_Ok in H. destruct H as [v1 [H1 H]]. cbn in H1.
    assert (v1 = k) by (destruct (ser && phase_eqb ph Inbound); injection H1 as ->; reflexivity). subst v1.
    cbn in H. destruct k; try discriminate. cbn in H.
    destruct (ser && phase_eqb ph Outbound); injection H as <-; reflexivity.
Qed.

(** @prop C37 Every structural error raised by an ordinary field, for any proper value, carries a
    token, its own or that of a nested error, provided that no map of the schema collapses keys. *)
Lemma rejections_carry_a_reason :
  forall E desc recon n f partial ph ser anc v e,
    throughout E well_keyed f -> throughout E (reasoned E desc recon) f -> proper (e_local E) v ->
    process_gen E desc recon n f partial ph ser anc v = Raise (XErr e) ->
    has_reason e.
Proof.
  intros E desc recon n f partial ph ser anc v e [Hf Hu] [Hg Hgu].
  revert f Hf Hg partial ph ser anc v e. induction n as [n IHn] using lt_wf_ind.
  intros f. induction f as [i|p k IH] using field_ind'; intros Hf Hg partial ph ser anc v e Hv H.
  - rewrite process_FUndef in H. destruct (e_undef E i) as [[|q k]|] eqn:He; try discriminate.
    destruct n as [|m]; [discriminate|]. exact (IHn m ltac:(lia) (Fld q k) (Hu i _ He) (Hgu i _ He) _ _ _ _ _ _ Hv H).
  - assert (Hwk := everywhere_top _ _ _ Hf). destruct (everywhere_top _ _ _ Hg) as [Hord [_ Hk]].
    assert (Hok := ordinary_kind_spec _ _ Hord).
    rewrite process_Fld in H. unfold process_body in H.
    set (path := match anc with [] => _ | _ => _ end) in H.
    assert (Hne : path <> []) by (unfold path; destruct anc; discriminate). clearbody path.
    assert (Hsub : forall g, In g (subfields k) -> child_reason E (g, process_gen E desc recon n g false)).
    { intros g Hg' ph' ser' anc' v' e' _ Hv' H'. cbn [snd] in H'.
      eapply (IH g Hg'); [eapply everywhere_sub, Hg'; exact Hf|eapply everywhere_sub, Hg'; exact Hg|exact Hv'|exact H']. }
    assert (Hown : own path e -> has_reason e) by apply own_reason.
    assert (Hsc : forall {F} (k' : kindP val F), ordinary_kind k' = true ->
      process_scalar E p k' (unserialize_value E recon k') (serialize_value E desc k') ph ser path v = Raise (XErr e) ->
      has_reason e) by (intros F k' Hk' Hs; apply Hown; eapply own_own_of, scalar_own; eassumption).
    destruct k; cbn [kmap] in H; try discriminate Hok; try (eapply Hsc; [|exact H]; reflexivity).
    + (* map *)
      unfold process_map in H. apply bind_Raise in H. destruct H as [H|[nul [_ H]]]; [apply Hown; eapply own_own_of, (is_null_own _ _ (KBoolean : kind)), H|].
      destruct nul; [discriminate|].
      destruct (as_dict v) as [items|] eqn:Hd; [|apply Hown; unfold terr in H; injection H as <-; eexists _, _; reflexivity].
      unfold pre_raw in H. cbn in Hord. rewrite Hord in H. cbn [bind] in H. rewrite Hd in H.
      destruct (proper_dict _ _ _ Hv Hd) as [Hdist Hprop].
      apply bind_Raise in H. destruct H as [H|[[acc valid] [Hl H]]].
      { apply Hown. clear - H. revert H. generalize true as b. generalize (@nil (val * val)) as acc.
        induction items as [|[name sub] items IHi]; intros acc b Hl; cbn [map_loop] in Hl; [discriminate|].
        apply bind_Raise in Hl. destruct Hl as [Hl|[name' [_ Hl]]].
        -- destruct key as [kf|]; cbn [option_map] in Hl.
           ++ apply bind_Raise in Hl. destruct Hl as [Hl|[seg [_ Hl]]].
              ** rewrite key_seg_percent in Hl. destruct (percent_s E name); discriminate.
              ** cbn [snd] in Hl. destruct (process_gen _ _ _ _ _ _ _ _ _ _) as [|[|]]; try discriminate. unfold verr in Hl. injection Hl as <-. eexists _, _. reflexivity.
           ++ destruct name; try discriminate Hl; unfold verr in Hl; injection Hl as <-; eexists _, _; reflexivity.
        -- apply bind_Raise in Hl. destruct Hl as [Hl|[seg [_ Hl]]].
           ++ rewrite key_seg_percent in Hl. destruct (percent_s E name'); discriminate.
           ++ apply bind_Raise in Hl. destruct Hl as [Hl|[x [_ Hl]]].
              ** destruct (wrap_undef _ _ _) as [|[|]]; discriminate.
              ** destruct (hashable name'); [|discriminate]. eapply IHi; exact Hl. }
      assert (Hbad : valid = false -> has_bad acc).
      { intros ->. eapply map_loop_reason; [| |exact Hdist|exact Hprop|exact Hl].
        - apply Hsub. destruct key; left; reflexivity.
        - destruct key as [kf|]; cbn [option_map]; [|exact I]. cbn [snd]. cbn in Hk.
          intros a1 a2 k1 k2 r1 r2. apply (Hk n ph ser). }
      apply bind_Raise in H. destruct H as [H|[[acc2 valid2] [Hr H]]].
      { exfalso. destruct required_keys as [req|]; [|discriminate].
        cbn [fst snd] in H. clear - H. revert acc valid H. induction req as [|name req IHr]; intros acc valid Hr; cbn in Hr; [discriminate|].
        destruct (hashable name); [|discriminate]. destruct (dmem _ _ _); eapply IHr; exact Hr. }
      cbn [fst snd] in H. destruct valid2; [discriminate|]. unfold serr in H. injection H as <-.
      assert (Hbad2 : has_bad acc2).
      { destruct required_keys as [req|]; [eapply map_required_reason; eassumption|].
        injection Hr as -> ->. apply Hbad. reflexivity. }
      destruct Hbad2 as [k [x [Hin Hx]]]. eapply reason_nested; [reflexivity| |exact Hx]. exists k. exact Hin.
    + (* sequence *)
      unfold process_sequence in H. apply bind_Raise in H. destruct H as [H|[nul [_ H]]]; [apply Hown; eapply own_own_of, (is_null_own _ _ (KBoolean : kind)), H|].
      destruct nul; [discriminate|].
      destruct v; try (apply Hown; unfold terr in H; injection H as <-; eexists _, _; reflexivity).
      unfold pre_raw in H. cbn in Hord. rewrite Hord in H. cbn [bind py_iter] in H.
      assert (Hl := proper_list _ _ _ Hv (or_introl eq_refl)).
      destruct (below _ _ _); [apply Hown; unfold verr in H; injection H as <-; eexists _, _; reflexivity|].
      destruct (above _ _ _); [apply Hown; unfold verr in H; injection H as <-; eexists _, _; reflexivity|].
      apply bind_Raise in H. destruct H as [H|[[es b] [Hs H]]].
      { rewrite seq_loop_outs in H. apply collect_all_raise in H. destruct H as [? [? [? [_ [_ H]]]]]. discriminate. }
      cbn [fst snd] in H. destruct b; cbn [negb] in H.
      * destruct unique; [|discriminate]. destruct (forallb hashable es); [|discriminate].
        destruct (has_dup E es); [|discriminate]. apply Hown. unfold verr in H. injection H as <-. eexists _, _. reflexivity.
      * unfold serr in H. injection H as <-.
        destruct (seq_loop_reason E (item, process_gen E desc recon n item false) ph ser path 0 l es) as [x [Hin Hx]].
        -- apply Hsub. left. reflexivity.
        -- exact Hl.
        -- exact Hs.
        -- eapply reason_nested; [reflexivity|exact Hin|exact Hx].
    + (* structure *)
      unfold process_structure in H. apply bind_Raise in H. destruct H as [H|[nul [_ H]]]; [apply Hown; eapply own_own_of, (is_null_own _ _ (KBoolean : kind)), H|].
      destruct nul; [discriminate|].
      destruct (as_dict v) as [items|] eqn:Hd; [|apply Hown; unfold terr in H; injection H as <-; eexists _, _; reflexivity].
      unfold pre_raw in H. cbn in Hk. rewrite Hk in H. cbn [bind] in H. rewrite Hd in H.
      destruct (proper_dict _ _ _ Hv Hd) as [_ Hprop].
      assert (Hch : forall d0 : list (str * field), (forall kf, In kf d0 -> In (snd kf) (subfields (KStructure d strict key_order : kind))) ->
                forall k c, In (k, c) (map (fun kf => (fst kf, (snd kf, process_gen E desc recon n (snd kf) false))) d0) ->
                child_reason E c /\ forall q, fparams E (fst c) = Some q -> proper (e_local E) (p_default q)).
      { intros d0 Hd0 k c Hin. apply in_map_iff in Hin. destruct Hin as [[k1 f1] [Heq Hin]]. injection Heq as <- <-.
        split; [apply Hsub; apply (Hd0 _ Hin)|]. cbn [fst snd]. intros q Hq.
        assert (Hev := everywhere_sub _ _ _ _ Hg (Hd0 _ Hin)). cbn [snd] in Hev.
        destruct f1 as [i|p1 k1']; cbn in Hq.
        - destruct (e_undef E i) as [[|p1 k1']|] eqn:Hi; try discriminate. injection Hq as <-.
          apply (everywhere_top _ _ _ (Hgu i _ Hi)).
        - injection Hq as <-. apply (everywhere_top _ _ _ Hev). }
      destruct d as [d|on vs]; cbn [sdef_map] in H.
      * cbn [well_keyed] in Hwk. destruct Hwk as [Hnd Hko].
        eapply struct_run_reason; [apply (Hch d)| | | | |exact H].
        -- intros kf Hkf. cbn [subfields sdef_fields]. apply in_map, Hkf.
        -- rewrite map_map. exact Hnd.
        -- destruct key_order; [apply Hko|exact I].
        -- right. reflexivity.
        -- exact Hprop.
      * cbn [well_keyed] in Hwk. destruct Hwk as [-> [q [kd [name [-> [Hname [_ [_ Hvs]]]]]]]].
        cbn [fst fparams] in H. rewrite Hname in H.
        destruct (sget name items) as [ident|] eqn:Hget;
          [|apply Hown; unfold verr in H; injection H as <-; eexists _, _; reflexivity].
        destruct (is_none ident) eqn:Hin;
          [destruct ident; try discriminate Hin; apply Hown; unfold verr in H; injection H as <-; eexists _, _; reflexivity|].
        assert (H' : (do ident' <- process_gen E desc recon n (Fld q kd) false ph ser (path ++ [$"." ++ name]) ident;
                   if hashable ident' then
                     match find (fun vd => veq (e_local E) (fst vd) ident')
                             (map (fun vl => (fst vl, map (fun kf => (fst kf, (snd kf, process_gen E desc recon n (snd kf) false))) (snd vl))) vs) with
                     | Some (_, (kf :: rest)) => struct_run E (kf :: rest) strict None ident' partial ph ser path items
                     | _ => verr path $"unrecognized"
                     end
                   else py TypeError) = Raise (XErr e)) by (destruct ident; try discriminate Hin; exact H).
        clear H. apply bind_Raise in H'. destruct H' as [H|[y [_ H]]].
        { eapply (Hsub (Fld q kd) (or_introl eq_refl)); [|apply (Hprop (VStr name, ident)), sget_In, Hget|exact H]. apply app_seg_nil. }
        destruct (hashable y); [|discriminate].
        rewrite (find_map_snd (fun a => veq (e_local E) a y)) in H.
        destruct (find (fun vd => veq (e_local E) (fst vd) y) vs) as [[vk d]|] eqn:Hfind;
          [|apply Hown; cbn in H; unfold verr in H; injection H as <-; eexists _, _; reflexivity].
        cbn [option_map fst snd] in H. apply find_some in Hfind. destruct Hfind as [Hinv _].
        rewrite Forall_forall in Hvs. destruct (Hvs _ Hinv) as [Hnd _]. cbn [snd] in Hnd.
        destruct (map (fun kf => (fst kf, (snd kf, process_gen E desc recon n (snd kf) false))) d) as [|kf0 rest] eqn:Hm;
          [apply Hown; unfold verr in H; injection H as <-; eexists _, _; reflexivity|].
        rewrite <- Hm in H.
        eapply struct_run_reason; [apply (Hch d)| | | | |exact H].
        -- intros kf Hkf. cbn [subfields sdef_fields]. right. apply in_flat_map. exists (vk, d).
           split; [exact Hinv|]. apply in_map, Hkf.
        -- rewrite map_map. exact Hnd.
        -- exact I.
        -- left. reflexivity.
        -- exact Hprop.
    + (* tuple *)
      unfold process_tuple in H. apply bind_Raise in H. destruct H as [H|[nul [_ H]]]; [apply Hown; eapply own_own_of, (is_null_own _ _ (KBoolean : kind)), H|].
      destruct nul; [discriminate|].
      assert (Hgo : forall l, v = VList l \/ v = VTuple l ->
        (if Nat.eqb (length l) (length (map (fun g => (g, process_gen E desc recon n g false)) values))
               then do r <- tuple_loop E (map (fun g => (g, process_gen E desc recon n g false)) values) ph ser path 0 v;
                    if snd r then Ok (VTuple (fst r)) else serr path (VList (fst r))
               else verr path $"length") = Raise (XErr e) -> has_reason e).
      { clear H. intros l Hvl H. assert (Hl := proper_list _ _ _ Hv Hvl).
        destruct (Nat.eqb _ _); [|apply Hown; unfold verr in H; injection H as <-; eexists _, _; reflexivity].
        apply bind_Raise in H. destruct H as [H|[[es b] [Hs H]]].
        { exfalso. clear - H. revert H. generalize 0%nat as i.
          generalize (map (fun g => (g, process_gen E desc recon n g false)) values) as cs.
          induction cs as [|c cs IHc]; intros i Hl; cbn [tuple_loop] in Hl; [discriminate|].
          apply bind_Raise in Hl. destruct Hl as [Hl|[u [_ Hl]]].
          { unfold py_index, py in Hl.
            repeat match type of Hl with context [match ?b with _ => _ end] => destruct b; try discriminate Hl end. }
          apply bind_Raise in Hl. destruct Hl as [Hl|[x [_ Hl]]]; [destruct (wrap_undef _ _ _) as [|[|]]; discriminate|].
          apply bind_Raise in Hl. destruct Hl as [Hl|[r [_ Hl]]]; [eapply IHc; exact Hl|discriminate]. }
        cbn [fst snd] in H. destruct b; [discriminate|]. unfold serr in H. injection H as <-.
        apply tuple_loop_reason in Hs.
        - destruct Hs as [x [Hin Hx]]. eapply reason_nested; [reflexivity|exact Hin|exact Hx].
        - apply Forall_forall. intros c Hc. apply in_map_iff in Hc. destruct Hc as [g [<- Hg']]. apply Hsub, Hg'.
        - intros j u Hj. rewrite Forall_forall in Hl.
          assert (Hn : nth_error l j = Some u).
          { destruct Hvl; subst v; cbn in Hj; destruct (nth_error l j); try discriminate; congruence. }
          apply Hl. eapply nth_error_In, Hn. }
      unfold pre_raw in H. cbn in Hord. rewrite Hord in H.
      destruct v; try (apply Hown; unfold terr in H; injection H as <-; eexists _, _; reflexivity);
        cbn [bind py_iter] in H; (eapply Hgo; [|exact H]); auto.
    + (* union *)
      unfold process_union in H. apply bind_Raise in H. destruct H as [H|[nul [_ H]]]; [apply Hown; eapply own_own_of, (is_null_own _ _ (KBoolean : kind)), H|].
      destruct nul; [discriminate|].
      assert (Hcs : forall g, In g fields -> child_reason E (g, process_gen E desc recon n g false))
        by (intros g Hg'; apply Hsub, Hg').
      clear - H Hcs Hown Hv Hne. induction fields as [|g gs IHg]; cbn [map union_loop] in H.
      * apply Hown. unfold terr in H. injection H as <-. eexists _, _. reflexivity.
      * assert (Hc := Hcs g (or_introl eq_refl) ph ser path v). cbn [fst snd] in *.
        destruct (wrap_outcome E g (process_gen E desc recon n g false ph ser path v)) as [Hw|[y Hw]]; rewrite Hw in H; [|discriminate].
        destruct (process_gen E desc recon n g false ph ser path v) as [r|[e0|x]]; try discriminate.
        destruct (er_cls e0).
        -- injection H as <-. apply Hc; auto.
        -- injection H as <-. apply Hc; auto.
        -- apply IHg; [exact H|]. intros g' Hg'. apply Hcs. right. exact Hg'.
Qed.

(** @example
(* The schema of the C35 example satisfies the hypotheses, and so does a map with untouched keys. *)
Example C37_example :
  let f := Fld p0 (KMap (Fld p0 (KInteger None None)) (Some (Fld p0 (KText None None None false))) None) in
  throughout env0 well_keyed f /\ throughout env0 (reasoned env0 nodesc norecon) f
  /\ run0 f Inbound false (VDict false [(VStr $"a", VStr $"x"); (VStr $"b", VInt 1)])
     = fails_with [$"(map)"]
         (VDict false [(VStr $"a", VErr (own_err CInvalidType [$"(map)"; $"[a]"] $"invalid")); (VStr $"b", VInt 1)]).
Proof.
  assert (Hp : proper (e_local env0) VNone) by (constructor; [discriminate|intros l [H|H]; discriminate]).
  split; [|split; [|reflexivity]].
  - split; [|discriminate]. constructor; [exact I|]. intros g [<-|[<-|[]]]; (constructor; [exact I|intros g []]).
  - split; [|discriminate]. constructor.
    + split; [reflexivity|]. split; [exact Hp|].
      intros n ph ser a1 a2 k1 k2 r1 r2 H1 H2 Hv.
      apply text_plain_result in H1, H2. subst. exact Hv.
    + intros g [<-|[<-|[]]]; (constructor; [split; [exact I|]; split; [exact Hp|exact I]|intros g []]).
Qed.
@end *)

(** @prop C37 The exception is real: when a map collapses two keys the error of the first can be lost
    and the rejection says nothing. *)
Lemma map_collapse_without_reason :
  exists E desc recon n f v e,
    proper (e_local E) v
    /\ process_gen E desc recon n f false Inbound false [] v = Raise (XErr e)
    /\ ~ has_reason e.
Proof.
  exists env0, nodesc, norecon, O,
    (Fld p0 (KMap (Fld p0 (KInteger None None)) (Some (Fld p0 (KText None None None true))) None)),
    (VDict false [(VStr $" a", VStr $"x"); (VStr $"a", VInt 1)]),
    (struct_err [$"(map)"] (VDict false [(VStr $"a", VInt 1)])).
  split; [|split].
  - constructor; [|intros l [H|H]; discriminate]. intros l [= <-]. split.
    + cbn. split; [intros k' [<-|[]]; reflexivity|]. split; [intros k' []|exact I].
    + intros kv [<-|[<-|[]]]; (constructor; [discriminate|intros l [H|H]; discriminate]).
  - reflexivity.
  - intros H. inversion H as [e tok Hin|e s x Hs Hn Hx]; subst; [destruct Hin|].
    injection Hs as <-. destruct Hn as [k [Hk|[]]]. discriminate.
Qed.
