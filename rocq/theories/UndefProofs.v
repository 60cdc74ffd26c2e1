(** * Placeholders (C38). *)
(* @imports Spec Demo UndefSpec *)
From Verif Require Import PyBaseFacts Induct ProcessFacts Spec Demo ScalarProofs StructFacts SeqProofs MapProofs StructProofs UndefSpec.

(** ** Fuel *)

Definition approx {A} (r r' : res A) : Prop := r = Raise (XPy RecursionError) \/ r = r'.

Lemma approx_refl {A} (r : res A) : approx r r.
Proof. right. reflexivity. Qed.

Lemma approx_trans {A} (a b c : res A) : approx a b -> approx b c -> approx a c.
Proof. intros [-> | ->] H; [left; reflexivity|exact H]. Qed.

Lemma approx_bind {A B} (r r' : res A) (f f' : A -> res B) :
  approx r r' -> (forall a, approx (f a) (f' a)) -> approx (bind r f) (bind r' f').
Proof.
  intros [-> | ->] H; [left; reflexivity|]. destruct r' as [a|x]; [apply H|apply approx_refl].
Qed.

Section Mono.
Variable E : env.
Variable desc : field -> res val.
Variable recon : val -> res field.

Definition crel (c c' : child) : Prop :=
  option_map bare (fparams E (fst c)) = option_map bare (fparams E (fst c')) /\ forall ph ser anc v, approx (snd c ph ser anc v) (snd c' ph ser anc v).

Lemma wrap_mono c c' r r' : crel c c' -> approx r r' -> approx (wrap_undef E (fst c) r) (wrap_undef E (fst c') r').
Proof.
  intros [Hc _] [-> | ->]; [left; reflexivity|]. right. unfold wrap_undef, undefined.
  destruct (fparams E (fst c)), (fparams E (fst c')); cbn in Hc; congruence.
Qed.

Lemma collect_mono r r' : approx r r' -> approx (collect r) (collect r').
Proof. intros [-> | ->]; [left; reflexivity|apply approx_refl]. Qed.

Lemma seq_mono c c' ph ser anc l : crel c c' -> forall i, approx (seq_loop E c ph ser anc i l) (seq_loop E c' ph ser anc i l).
Proof.
  intros Hc. induction l as [|v l IH]; intros i; cbn; [apply approx_refl|].
  apply approx_bind; [apply collect_mono, wrap_mono; [exact Hc|apply Hc]|]. intros x.
  apply approx_bind; [apply IH|]. intros; apply approx_refl.
Qed.

Lemma map_mono cv cv' ck ck' ph ser anc l :
  crel cv cv' ->
  match ck, ck' with Some c, Some c' => crel c c' | None, None => True | _, _ => False end ->
  forall acc valid, approx (map_loop E cv ck ph ser anc l acc valid) (map_loop E cv' ck' ph ser anc l acc valid).
Proof.
  intros Hc Hk. induction l as [|[name sub] l IH]; intros acc valid; cbn; [apply approx_refl|].
  apply approx_bind.
  { destruct ck as [c|], ck' as [c'|]; try contradiction; [|apply approx_refl].
    apply approx_bind; [apply approx_refl|]. intros seg. destruct Hk as [_ Hk].
    destruct (Hk ph ser (anc ++ [seg]) name) as [-> | ->]; [left; reflexivity|apply approx_refl]. }
  intros name'. apply approx_bind; [apply approx_refl|]. intros seg.
  apply approx_bind; [apply collect_mono, wrap_mono; [exact Hc|apply Hc]|]. intros x.
  destruct (hashable name'); [apply IH|apply approx_refl].
Qed.

Lemma tuple_mono cs cs' ph ser anc v : Forall2 crel cs cs' ->
  forall i, approx (tuple_loop E cs ph ser anc i v) (tuple_loop E cs' ph ser anc i v).
Proof.
  intros H. induction H as [|c c' cs cs' Hc Hcs IH]; intros i; cbn; [apply approx_refl|].
  apply approx_bind; [apply approx_refl|]. intros u.
  apply approx_bind; [apply collect_mono, wrap_mono; [exact Hc|apply Hc]|]. intros x.
  apply approx_bind; [apply IH|]. intros; apply approx_refl.
Qed.

Lemma union_mono cs cs' ph ser anc v : Forall2 crel cs cs' ->
  approx (union_loop E cs ph ser anc v) (union_loop E cs' ph ser anc v).
Proof.
  intros H. induction H as [|c c' cs cs' Hc Hcs IH]; cbn; [apply approx_refl|].
  destruct (wrap_mono c c' (snd c ph ser anc v) (snd c' ph ser anc v) Hc (proj2 Hc _ _ _ _)) as [-> | ->];
    [left; reflexivity|].
  destruct (wrap_undef E (fst c') _) as [|[e|]]; try apply approx_refl. destruct (er_cls e); try apply approx_refl. exact IH.
Qed.

Definition drel (d d' : list (str * child)) : Prop :=
  Forall2 (fun a b => fst a = fst b /\ crel (snd a) (snd b)) d d'.

Lemma drel_aget d d' name : drel d d' ->
  match aget name d, aget name d' with Some c, Some c' => crel c c' | None, None => True | _, _ => False end.
Proof.
  intros H. induction H as [|[x c] [x' c'] d d' [Hx Hc] Hd IH]; cbn; [exact I|].
  cbn in Hx. subst x'. destruct (str_eqb name x); [exact Hc|exact IH].
Qed.

Lemma struct_mono d d' items partial ph ser anc order : drel d d' ->
  forall names acc valid,
  approx (struct_loop E d items partial ph ser anc order names acc valid)
         (struct_loop E d' items partial ph ser anc order names acc valid).
Proof.
  intros Hd. induction order as [|name order IH]; intros names acc valid; cbn; [apply approx_refl|].
  pose proof (drel_aget d d' name Hd) as Ha.
  destruct (aget name d) as [c|], (aget name d') as [c'|]; try contradiction; [|apply approx_refl].
  assert (He : option_map bare (fparams E (fst c)) = option_map bare (fparams E (fst c'))) by apply Ha.
  assert (Hd' : decide E ph partial (fst c) (kmem name names) (sget name items)
                = decide E ph partial (fst c') (kmem name names) (sget name items)).
  { unfold decide. destruct (if kmem name names then sget name items else None); [reflexivity|].
    destruct partial; [reflexivity|].
    destruct (fparams E (fst c)) as [q|], (fparams E (fst c')) as [q'|]; cbn in He; try discriminate; [|reflexivity].
    injection He as _ _ H1 _ H2 _ _ _ _. rewrite H1, H2. reflexivity. }
  rewrite Hd'. apply approx_bind; [apply approx_refl|]. intros dd.
  destruct dd; [apply IH|apply IH|].
  destruct (fparams E (fst c)) as [q0|], (fparams E (fst c')) as [q|]; cbn in He; try discriminate; [|apply approx_refl].
  replace (p_ignore_null q0) with (p_ignore_null q) by (injection He as _ _ _ H1 _ _ _ _ _; congruence).
  destruct (p_ignore_null q && is_none v); [apply IH|].
  apply approx_bind; [apply collect_mono, wrap_mono; [exact Ha|apply Ha]|]. intros x. apply IH.
Qed.

Lemma drel_keys d d' : drel d d' -> map fst d = map fst d'.
Proof. intros H. induction H as [|a b d d' [Ha _] Hd IH]; cbn; [reflexivity|]. congruence. Qed.

Lemma struct_run_mono d d' strict order ident partial ph ser anc items : drel d d' ->
  approx (struct_run E d strict order ident partial ph ser anc items)
         (struct_run E d' strict order ident partial ph ser anc items).
Proof.
  intros Hd. unfold struct_run. rewrite (drel_keys d d' Hd). apply approx_bind; [apply approx_refl|]. intros o.
  apply approx_bind; [apply struct_mono, Hd|]. intros; apply approx_refl.
Qed.

Lemma scalar_mono {F} p (k : kindP val F) un un' sv sv' ph ser anc v :
  (forall a w, approx (un a w) (un' a w)) -> (forall w, approx (sv w) (sv' w)) ->
  approx (process_scalar E p k un sv ph ser anc v) (process_scalar E p k un' sv' ph ser anc v).
Proof.
  intros Hu Hs. unfold process_scalar. apply approx_bind; [apply approx_refl|]. intros [|]; [apply approx_refl|].
  apply approx_bind; [destruct (ser && phase_eqb ph Inbound); [apply Hu|apply approx_refl]|]. intros v1.
  apply approx_bind; [apply approx_refl|]. intros v2. apply approx_bind; [apply approx_refl|]. intros c.
  destruct (negb c); [apply approx_refl|]. apply approx_bind; [apply approx_refl|]. intros v3.
  destruct (ser && phase_eqb ph Outbound); [|apply approx_refl].
  destruct (Hs v3) as [-> | ->]; [left; reflexivity|apply approx_refl].
Qed.

Lemma surr_un_mono un un' anc v : (forall f a w, approx (un f a w) (un' f a w)) ->
  approx (surr_unserialize E recon un anc v) (surr_unserialize E recon un' anc v).
Proof.
  intros H. unfold surr_unserialize. destruct (as_dict v) as [items|]; [|apply approx_refl].
  match goal with |- approx (if ?b then _ else _) _ => destruct b end; [apply approx_refl|]. cbv zeta.
  destruct (sget $"__schema__" _) as [sch|].
  - destruct (truthy sch); [|apply approx_refl]. apply approx_bind; [apply approx_refl|]. intros f.
    apply approx_bind; [apply H|]. intros; apply approx_refl.
  - destruct (e_schemas E _); [apply approx_refl|].
    match goal with |- approx (match ?b with VInt _ => _ | _ => _ end) _ => destruct b end; try apply approx_refl.
    match goal with |- approx (if ?b then _ else _) _ => destruct b end; [apply approx_refl|].
    destruct (nth_error _ _); [|apply approx_refl]. apply approx_bind; [apply H|]. intros; apply approx_refl.
Qed.

Lemma surr_ser_mono un un' v : (forall f a w, approx (un f a w) (un' f a w)) ->
  approx (surr_serialize E desc un v) (surr_serialize E desc un' v).
Proof.
  intros H. unfold surr_serialize. destruct v; try apply approx_refl. destruct schema as [f|].
  - apply approx_bind; [apply H|]. intros; apply approx_refl.
  - destruct (e_schemas E impl); [apply approx_refl|]. destruct version; [|apply approx_refl]. cbv zeta.
    match goal with |- approx (if ?b then _ else _) _ => destruct b end; [apply approx_refl|].
    destruct (nth_error _ _); [|apply approx_refl]. apply approx_bind; [apply H|]. intros; apply approx_refl.
Qed.

Lemma Forall2_map_in {A B C} (R : B -> C -> Prop) (g : A -> B) (h : A -> C) l :
  (forall a, In a l -> R (g a) (h a)) -> Forall2 R (map g l) (map h l).
Proof. induction l; cbn; constructor; auto. Qed.

Lemma find_variants {A} (g h : list (str * field) -> A) (P : val -> bool) (l : list (val * list (str * field))) :
  (exists w d, In (w, d) l /\ find (fun vd => P (fst vd)) (map (fun vl => (fst vl, g (snd vl))) l) = Some (w, g d)
               /\ find (fun vd => P (fst vd)) (map (fun vl => (fst vl, h (snd vl))) l) = Some (w, h d))
  \/ (find (fun vd => P (fst vd)) (map (fun vl => (fst vl, g (snd vl))) l) = None
      /\ find (fun vd => P (fst vd)) (map (fun vl => (fst vl, h (snd vl))) l) = None).
Proof.
  induction l as [|[w d] l IH]; cbn; [auto|]. destruct (P w).
  - left. exists w, d. auto.
  - destruct IH as [[w' [d' [H1 H2]]]|H]; [left; exists w', d'; auto|auto].
Qed.

Lemma body_mono sub sub' p (k : kind) (g h : field -> child) partial ph ser anc v :
  (forall f, In f (subfields k) -> crel (g f) (h f)) ->
  (forall f ph ser anc v, approx (sub f ph ser anc v) (sub' f ph ser anc v)) ->
  approx (process_body E desc recon sub p (kmap g k) partial ph ser anc v)
         (process_body E desc recon sub' p (kmap h k) partial ph ser anc v).
Proof.
  intros Hk Hs. unfold process_body. rewrite !kind_type_kmap.
  destruct k; cbn [kmap]; try apply approx_refl.
  - (* map *)
    unfold process_map. apply approx_bind; [apply approx_refl|]. intros [|]; [apply approx_refl|].
    destruct (as_dict v); [|apply approx_refl]. apply approx_bind; [apply approx_refl|]. intros v1.
    destruct (as_dict v1); [|apply approx_refl]. apply approx_bind.
    + apply map_mono.
      * apply Hk. destruct key; cbn; auto.
      * destruct key; cbn; [|exact I]. apply Hk. cbn. auto.
    + intros r. apply approx_bind; [apply approx_refl|]. intros; apply approx_refl.
  - (* sequence *)
    unfold process_sequence. apply approx_bind; [apply approx_refl|]. intros [|]; [apply approx_refl|].
    destruct v; try apply approx_refl. apply approx_bind; [apply approx_refl|]. intros v1.
    destruct (py_iter v1); [|apply approx_refl]. destruct (below _ _ _); [apply approx_refl|].
    destruct (above _ _ _); [apply approx_refl|]. apply approx_bind; [apply seq_mono, Hk; cbn; auto|].
    intros; apply approx_refl.
  - (* structure *)
    unfold process_structure. apply approx_bind; [apply approx_refl|]. intros [|]; [apply approx_refl|].
    destruct (as_dict v); [|apply approx_refl]. apply approx_bind; [apply approx_refl|]. intros v1.
    destruct (as_dict v1) as [items|]; [|apply approx_refl].
    destruct d as [defn|on variants]; cbn [sdef_map].
    + apply struct_run_mono. apply Forall2_map_in. intros [x c] Hc. cbn. split; [reflexivity|].
      apply Hk. cbn. apply (in_map snd) in Hc. exact Hc.
    + assert (Hon : crel (g on) (h on)) by (apply Hk; cbn; auto). pose proof (proj1 Hon) as Hq.
      destruct (fparams E (fst (g on))) as [q0|], (fparams E (fst (h on))) as [q|]; cbn in Hq; try discriminate;
        [|apply approx_refl]. cbv zeta.
      replace (p_name q0) with (p_name q) by (injection Hq as H1 _ _ _ _ _ _ _ _; congruence).
      match goal with |- approx (match ?b with Some _ => _ | None => _ end) _ => destruct b as [ident|] end;
        [|apply approx_refl].
      destruct ident; try apply approx_refl;
      (destruct (p_name q); [|apply approx_refl]; apply approx_bind; [apply Hon|]; intros ident';
       destruct (hashable ident'); [|apply approx_refl];
       destruct (find_variants (map (fun kf => (fst kf, g (snd kf)))) (map (fun kf => (fst kf, h (snd kf))))
                  (fun w => veq (e_local E) w ident') variants) as [[w [dv [Hd [-> ->]]]]|[-> ->]]; [|apply approx_refl];
       destruct dv as [|[x c] dv]; [apply approx_refl|]; cbn [map];
       apply struct_run_mono;
       apply (Forall2_map_in (fun a b => fst a = fst b /\ crel (snd a) (snd b))
                (fun kf => (fst kf, g (snd kf))) (fun kf => (fst kf, h (snd kf))) ((x, c) :: dv));
       intros [y c'] Hc; cbn; split; [reflexivity|]; apply Hk; cbn [subfields sdef_fields]; right; apply in_flat_map;
       exists (w, (x, c) :: dv); split; [exact Hd|]; apply (in_map snd) in Hc; exact Hc).
  - (* surrogate *)
    apply scalar_mono; intros; [apply surr_un_mono|apply surr_ser_mono]; intros; apply Hs.
  - (* tuple *)
    unfold process_tuple. apply approx_bind; [apply approx_refl|]. intros [|]; [apply approx_refl|].
    rewrite !map_length.
    destruct v; try apply approx_refl;
    (apply approx_bind; [apply approx_refl|]; intros v1; destruct (py_iter v1); [|apply approx_refl];
     destruct (Nat.eqb _ _); [|apply approx_refl]; apply approx_bind;
     [apply tuple_mono, Forall2_map_in; intros f Hf; apply Hk; exact Hf|intros; apply approx_refl]).
  - (* union *)
    unfold process_union. apply approx_bind; [apply approx_refl|]. intros [|]; [apply approx_refl|].
    apply union_mono, Forall2_map_in. intros f Hf. apply Hk. exact Hf.
Qed.

Notation proc := (process_gen E desc recon).

Lemma fuel_mono n : forall m, (n <= m)%nat -> forall f partial ph ser anc v,
  approx (proc n f partial ph ser anc v) (proc m f partial ph ser anc v).
Proof.
  induction n as [n IHn] using (well_founded_induction lt_wf). intros m Hm f.
  induction f as [i|p k IHk] using field_ind'; intros partial ph ser anc v.
  - rewrite !process_FUndef. destruct (e_undef E i) as [[|q k]|]; try apply approx_refl.
    destruct n as [|n']; [left; reflexivity|]. destruct m as [|m']; [lia|]. apply IHn; lia.
  - rewrite !process_Fld. apply body_mono.
    + intros f Hf. split; [reflexivity|]. cbn. intros. apply IHk, Hf.
    + intros f ph' ser' anc' v'. unfold sub_of. destruct n as [|n']; [left; reflexivity|].
      destruct m as [|m']; [lia|]. apply IHn; lia.
Qed.

Lemma kmap_kmap (g : field -> child) (h : field -> field) (k : kind) :
  kmap g (kmap h k) = kmap (fun f => g (h f)) k.
Proof.
  destruct k as [ | | | | | | | | | | | |value [key|] rk| |item a b u|d s o| | | | |l|l| ]; cbn; try reflexivity.
  - destruct d as [l|on l]; cbn; do 2 f_equal.
    + rewrite map_map. reflexivity.
    + rewrite map_map. apply map_ext. intros [w d]. cbn. f_equal. rewrite map_map. reflexivity.
  - f_equal. apply map_map.
  - f_equal. apply map_map.
Qed.

Lemma fparams_resolve f : fparams E f = fparams E (resolve E f).
Proof. destruct f as [i|p k]; cbn; [|reflexivity]. destruct (e_undef E i) as [[|]|] eqn:H; cbn; rewrite ?H; reflexivity. Qed.

(** Resolution, up to fuel. *)
Lemma resolve_mono n f : forall partial ph ser anc v,
  approx (proc n f partial ph ser anc v) (proc n (resolve E f) partial ph ser anc v).
Proof.
  induction f as [i|p k IHk] using field_ind'; intros partial ph ser anc v.
  - rewrite process_FUndef. cbn. destruct (e_undef E i) as [[|q k]|] eqn:H; try (rewrite process_FUndef, H; apply approx_refl).
    destruct n as [|n]; [left; reflexivity|]. apply fuel_mono. lia.
  - cbn [resolve]. rewrite !process_Fld. rewrite kmap_kmap. apply body_mono; [|intros; apply approx_refl].
    intros f Hf. split; [f_equal; apply fparams_resolve|]. cbn. intros. apply IHk, Hf.
Qed.

Lemma unresolve_mono n f : forall partial ph ser anc v,
  approx (proc n (resolve E f) partial ph ser anc v) (proc (S n) f partial ph ser anc v).
Proof.
  induction f as [i|p k IHk] using field_ind'; intros partial ph ser anc v.
  - rewrite (process_FUndef _ _ _ (S n)). cbn [resolve]. destruct (e_undef E i) as [[|q k]|] eqn:H;
      try (rewrite process_FUndef, H; apply approx_refl). apply approx_refl.
  - cbn [resolve]. rewrite !process_Fld. rewrite kmap_kmap. apply body_mono.
    + intros f Hf. split; [f_equal; symmetry; apply fparams_resolve|]. cbn. intros. apply IHk, Hf.
    + intros. unfold sub_of. destruct n; [left; reflexivity|]. apply fuel_mono. lia.
Qed.

End Mono.

(** @prop C38 A schema containing placeholders behaves, after the placeholders were defined, as the schema with
    the definitions in their place: exactly the same outcomes. *)
Lemma placeholder_transparent :
  forall E desc recon f partial ph ser anc v r,
    settles E desc recon f partial ph ser anc v r <-> settles E desc recon (resolve E f) partial ph ser anc v r.
Proof.
  intros E desc recon f partial ph ser anc v r. split; intros [Hr [n Hn]].
  - split; [exact Hr|]. exists n. destruct (resolve_mono E desc recon n f partial ph ser anc v) as [H|H]; congruence.
  - split; [exact Hr|]. exists (S n). destruct (unresolve_mono E desc recon n f partial ph ser anc v) as [H|H]; congruence.
Qed.

(** @example
(* A tree: a list of trees. *)
Example C38_resolve_example :
  let E := with_undef env0 (fun i => match i with
                                     | O => Some (Fld p0 (KSequence (FUndef 0) None (Some 1%Z) false))
                                     | _ => None
                                     end) in
  let tree := VList [VList [VList []]] in
  resolve E (FUndef 0) = Fld p0 (KSequence (FUndef 0) None (Some 1%Z) false)
  /\ settles E nodesc norecon (FUndef 0) false Inbound true [] tree (Ok tree)
  /\ settles E nodesc norecon (resolve E (FUndef 0)) false Inbound true [] (VList [VList []; VList []])
       (fails [$"(sequence)"] $"max_length").
Proof.
  split; [reflexivity|]. split; (split; [discriminate|exists 3%nat; reflexivity]).
Qed.
@end *)

(** @prop C38 The outcome does not depend on how much recursion was allowed. *)
Lemma outcome_unique :
  forall E desc recon f partial ph ser anc v r r',
    settles E desc recon f partial ph ser anc v r -> settles E desc recon f partial ph ser anc v r' -> r = r'.
Proof.
  intros E desc recon f partial ph ser anc v r r' [Hr [n Hn]] [Hr' [m Hm]].
  destruct (Nat.le_ge_cases n m) as [H|H].
  - destruct (fuel_mono E desc recon n m H f partial ph ser anc v); congruence.
  - destruct (fuel_mono E desc recon m n H f partial ph ser anc v); congruence.
Qed.

(** @example
Example C38_unique_example :
  settles env0 nodesc norecon (Fld p0 (KInteger None None)) false Inbound true [] (VStr $"12") (Ok (VInt 12)).
Proof. split; [discriminate|]. exists O. reflexivity. Qed.
@end *)

(** ** Unresolved placeholders *)

Lemma unresolved_fparams E f : unresolved E f -> fparams E f = None.
Proof.
  intros H. destruct (fparams E f) as [q|] eqn:Hq; [|reflexivity]. exfalso. apply H. exists q. apply defined_fparams, Hq.
Qed.

Lemma unresolved_process E desc recon n f partial ph ser anc v : unresolved E f ->
  process_gen E desc recon n f partial ph ser anc v = py AttributeError.
Proof.
  intros H. apply unresolved_fparams in H. destruct f as [i|p k]; [|discriminate]. rewrite process_FUndef.
  cbn in H. destruct (e_undef E i) as [[|]|]; try reflexivity. discriminate.
Qed.

Lemma wrap_unresolved E f : unresolved E f -> wrap_undef E f (py AttributeError) = py UndefinedFieldError.
Proof. intros H. unfold wrap_undef, undefined. cbn. rewrite unresolved_fparams by exact H. reflexivity. Qed.

(** @prop C38 A sequence whose item field is an unresolved placeholder raises UndefinedFieldError on every
    nonempty list within its length bounds; the empty list does not need the item field. *)
Lemma undefined_sequence :
  forall E desc recon n p item mn mx u partial ph ser anc l,
    p_preprocessor p = None -> unresolved E item ->
    at_least Z.le mn (Z.of_nat (length l)) -> at_most Z.le mx (Z.of_nat (length l)) ->
    process_gen E desc recon n (Fld p (KSequence item mn mx u)) partial ph ser anc (VList l) =
    match l with [] => Ok (VList []) | _ => Raise (XPy UndefinedFieldError) end.
Proof.
  intros E desc recon n p item mn mx u partial ph ser anc l Hp Hu H1 H2.
  rewrite process_seq_eq. unfold process_sequence. rewrite is_null_some by discriminate. cbn [bind].
  unfold pre_raw. rewrite Hp. cbn [bind py_iter].
  apply below_at_least in H1. apply above_at_most in H2. unfold zlen. rewrite H1, H2.
  destruct l as [|x l]; [destruct u; reflexivity|]. cbn [seq_loop fst snd].
  rewrite unresolved_process, wrap_unresolved by exact Hu. reflexivity.
Qed.

(** @example
Example C38_sequence_example :
  unresolved env0 (FUndef 7)
  /\ run0 (Fld p0 (KSequence (FUndef 7) None None false)) Inbound true (VList [VInt 1]) = Raise (XPy UndefinedFieldError)
  /\ run0 (Fld p0 (KSequence (FUndef 7) None None false)) Inbound true (VList []) = Ok (VList []).
Proof. split; [intros [q [k H]]; discriminate|]. split; reflexivity. Qed.
@end *)

(** @prop C38 A tuple raises UndefinedFieldError at its first unresolved placeholder, when the fields before it
    accept or reject their values. *)
Lemma undefined_tuple :
  forall E desc recon n p before f after partial ph ser anc v l,
    p_preprocessor p = None -> v = VList l \/ v = VTuple l ->
    length l = length (before ++ f :: after) ->
    unresolved E f -> Forall (defined E) before ->
    let path := path_of p (KTuple (before ++ f :: after)) anc in
    (forall i g x, nth_error before i = Some g -> nth_error l i = Some x ->
       orderly (process_gen E desc recon n g false ph ser (path ++ [index_seg i]) x)) ->
    process_gen E desc recon n (Fld p (KTuple (before ++ f :: after))) partial ph ser anc v
    = Raise (XPy UndefinedFieldError).
Proof.
  intros E desc recon n p before f after partial ph ser anc v l Hp Hv Hlen Hu Hb path Ho.
  rewrite process_tuple_eq. fold path. unfold process_tuple.
  rewrite is_null_some by (destruct Hv as [-> | ->]; discriminate). cbn [bind].
  unfold pre_raw. rewrite Hp.
  assert (Hit : py_iter v = Some l) by (destruct Hv as [-> | ->]; reflexivity).
  assert (Hix : forall i, py_index E v i = match nth_error l i with Some x => Ok x | None => py IndexError end)
    by (destruct Hv as [-> | ->]; reflexivity).
  match goal with |- match v with VList _ => ?a | VTuple _ => _ | _ => _ end = ?b =>
    transitivity a; [destruct Hv as [-> | ->]; reflexivity|] end.
  cbn [bind]. rewrite Hit, map_length, Hlen, Nat.eqb_refl.
  assert (Hloop : forall i m, (i + m = length l)%nat -> m = length (before ++ f :: after) ->
     (forall j g x, nth_error before j = Some g -> nth_error l (i + j) = Some x ->
        orderly (process_gen E desc recon n g false ph ser (path ++ [index_seg (i + j)]) x)) ->
     tuple_loop E (map (fun g => (g, process_gen E desc recon n g false)) (before ++ f :: after)) ph ser path i v
     = Raise (XPy UndefinedFieldError)).
  { clear Hlen Ho. induction before as [|g before IH]; intros i m Hm1 Hm2 Ho; cbn [app map tuple_loop fst snd].
    - rewrite Hix. destruct (nth_error l i) as [x|] eqn:Hx; [|apply nth_error_None in Hx; cbn in Hm2; lia].
      cbn [bind]. rewrite unresolved_process, wrap_unresolved by exact Hu. reflexivity.
    - rewrite Hix. destruct (nth_error l i) as [x|] eqn:Hx; [|apply nth_error_None in Hx; cbn in Hm2; lia].
      cbn [bind]. inversion Hb as [|? ? Hg Hb']; subst. rewrite wrap_defined by exact Hg. rewrite index_seg_eq.
      specialize (Ho O g x eq_refl) as Ho0. rewrite Nat.add_0_r in Ho0. specialize (Ho0 Hx).
      assert (Hrest : tuple_loop E (map (fun g => (g, process_gen E desc recon n g false)) (before ++ f :: after)) ph ser path (S i) v
                      = Raise (XPy UndefinedFieldError)).
      { eapply IH; [exact Hb'| |reflexivity|].
        - cbn in Hm1. lia.
        - intros j g' x' Hg' Hx'. specialize (Ho (S j) g' x' Hg'). rewrite Nat.add_succ_r in Ho. apply Ho, Hx'. }
      destruct (process_gen E desc recon n g false ph ser (path ++ [index_seg i]) x) as [r|[e|y]].
      + cbn [collect bind]. rewrite Hrest. reflexivity.
      + cbn [collect bind]. rewrite Hrest. reflexivity.
      + exfalso. eapply Ho0. reflexivity. }
  rewrite (Hloop O (length l)); [reflexivity|lia|exact Hlen|]. intros j g x Hg Hx. apply Ho; assumption.
Qed.

(** @example
Example C38_tuple_example :
  run0 (Fld p0 (KTuple [Fld p0 (KInteger None None); FUndef 7])) Inbound true (VList [VStr $"x"; VInt 2])
  = Raise (XPy UndefinedFieldError).
Proof. reflexivity. Qed.
@end *)

(** @prop C38 A union raises UndefinedFieldError when every field before the unresolved placeholder rejects the
    type of the value. *)
Lemma undefined_union :
  forall E desc recon n p before f after partial ph ser anc v,
    v <> VNone -> unresolved E f -> Forall (defined E) before ->
    let path := path_of p (KUnion (before ++ f :: after)) anc in
    Forall (fun g => exists e, process_gen E desc recon n g false ph ser path v = Raise (XErr e)
                               /\ er_cls e = CInvalidType) before ->
    process_gen E desc recon n (Fld p (KUnion (before ++ f :: after))) partial ph ser anc v
    = Raise (XPy UndefinedFieldError).
Proof.
  intros E desc recon n p before f after partial ph ser anc v Hv Hu Hb path Hr.
  rewrite process_union_eq by exact Hv. fold path. clearbody path.
  induction before as [|g before IH]; cbn [app map union_loop fst snd].
  - rewrite unresolved_process, wrap_unresolved by exact Hu. reflexivity.
  - inversion Hb; subst. inversion Hr as [|? ? [e [He Hc]] Hr']; subst.
    rewrite wrap_defined by assumption. rewrite He, Hc. apply IH; assumption.
Qed.

(** @example
Example C38_union_example :
  run0 (Fld p0 (KUnion [Fld p0 (KInteger None None); FUndef 7])) Inbound false (VStr $"x")
  = Raise (XPy UndefinedFieldError)
  /\ run0 (Fld p0 (KUnion [Fld p0 (KInteger None None); FUndef 7])) Inbound false (VInt 1) = Ok (VInt 1).
Proof. split; reflexivity. Qed.
@end *)

(** @prop C38 A map (with text keys) whose value field is an unresolved placeholder raises UndefinedFieldError on
    every nonempty dict of text keys. *)
Lemma undefined_map :
  forall E desc recon n p value req partial ph ser anc o k x rest,
    p_preprocessor p = None -> unresolved E value ->
    process_gen E desc recon n (Fld p (KMap value None req)) partial ph ser anc (VDict o ((VStr k, x) :: rest))
    = Raise (XPy UndefinedFieldError).
Proof.
  intros E desc recon n p value req partial ph ser anc o k x rest Hp Hu.
  rewrite process_map_eq by exact Hp. cbn [option_map traverse]. unfold map_step at 1. cbn [bind fst snd key_seg].
  rewrite unresolved_process, wrap_unresolved by exact Hu. reflexivity.
Qed.

(** @example
Example C38_map_example :
  run0 (Fld p0 (KMap (FUndef 7) None None)) Outbound false (VDict false [(VStr $"a", VInt 1)])
  = Raise (XPy UndefinedFieldError).
Proof. reflexivity. Qed.
@end *)

Lemma fates_ok E desc recon n p defn strict ko partial ph ser anc items before :
  NoDup (map fst defn) -> NoDup (map fst before) -> incl before defn -> distinct (e_local E) (map fst items) ->
  Forall (fun kf => defined E (snd kf)) before ->
  let path := path_of p (KStructure (SPlain defn) strict ko) anc in
  Forall (fun kf => forall r,
     fate E (fun k f x => process_gen E desc recon n f false ph ser (path ++ [name_segment k]) x)
       ph partial path items kf (Some r) -> orderly r) before ->
  exists rs, traverse (sstep E (map (fun kf : str * field => (fst kf, (snd kf, process_gen E desc recon n (snd kf) false))) defn)
              items partial ph ser path) (map fst before) = Ok rs.
Proof.
  intros Hnd Hndb Hin Hdis Hd path Ho.
  set (step := sstep E _ _ _ _ _ _).
  assert (Hall : forall kf, In kf before -> exists x, step (fst kf) = Ok x).
  { intros [k f] Hkf.
    assert (Hvis : visits defn (Some (map fst before)) before) by (destruct before; [destruct Hkf|split; [reflexivity|exact Hin]]).
    pose proof (sstep_fate E desc recon n p defn strict (Some (map fst before)) partial ph ser anc before items
                  Hnd Hd Hvis Hdis k f Hkf) as Hs.
    change (path_of p (KStructure (SPlain defn) strict (Some (map fst before))) anc) with path in Hs. fold step in Hs.
    cbn [fst]. destruct (step k) as [x|[e|x]]; [eauto|contradiction|].
    rewrite Forall_forall in Ho. exfalso. exact (Ho _ Hkf _ Hs x eq_refl). }
  clear - Hall. induction before as [|kf before IH]; cbn; [eauto|].
  destruct (Hall kf) as [x ->]; [left; reflexivity|]. destruct IH as [rs ->]; [intros; apply Hall; right; assumption|].
  cbn. eauto.
Qed.

Lemma traverse_app {A B} (f : A -> res B) l m :
  traverse f (l ++ m) = do a <- traverse f l; do b <- traverse f m; Ok (a ++ b).
Proof.
  induction l as [|x l IH]; cbn; [destruct (traverse f m); reflexivity|].
  destruct (f x); cbn; [|reflexivity]. rewrite IH. destruct (traverse f l); cbn; [|reflexivity].
  destruct (traverse f m); reflexivity.
Qed.

(** @prop C38 A structure visiting an unresolved placeholder (the keys before it being defined, and accepting or
    rejecting their values) raises UndefinedFieldError when the key is given, AttributeError when it is
    absent unless partial. *)
Lemma undefined_structure :
  forall E desc recon n p defn strict ko before k f after partial ph ser anc o items,
    p_preprocessor p = None -> NoDup (map fst defn) -> NoDup (map fst (before ++ (k, f) :: after)) ->
    visits defn ko (before ++ (k, f) :: after) -> distinct (e_local E) (map fst items) ->
    unresolved E f -> Forall (fun kf => defined E (snd kf)) before ->
    let path := path_of p (KStructure (SPlain defn) strict ko) anc in
    let out := process_gen E desc recon n (Fld p (KStructure (SPlain defn) strict ko)) partial ph ser anc (VDict o items) in
    Forall (fun kf => forall r,
       fate E (fun k f x => process_gen E desc recon n f false ph ser (path ++ [name_segment k]) x)
         ph partial path items kf (Some r) -> orderly r) before ->
    ((exists v, In (VStr k, v) items) -> out = Raise (XPy UndefinedFieldError))
    /\ ((forall v, ~ In (VStr k, v) items) -> partial = false -> out = Raise (XPy AttributeError)).
Proof.
  intros E desc recon n p defn strict ko before k f after partial ph ser anc o items Hp Hnd Hndo Hvis Hdis Hu Hb path out Ho.
  assert (Hincl : incl (before ++ (k, f) :: after) defn) by (eapply visits_incl0; eauto).
  assert (Hnb : NoDup (map fst before)) by (rewrite map_app in Hndo; eapply NoDup_app_left; exact Hndo).
  assert (Hib : incl before defn) by (intros x Hx; apply Hincl, in_or_app; auto).
  destruct (fates_ok E desc recon n p defn strict ko partial ph ser anc items before Hnd Hnb Hib Hdis Hb Ho) as [rs Hrs].
  fold path in Hrs.
  assert (Hout : forall x, sstep E (map (fun kf : str * field => (fst kf, (snd kf, process_gen E desc recon n (snd kf) false))) defn)
              items partial ph ser path k = Raise x -> out = Raise x).
  { intros x Hx. unfold out. rewrite (process_struct_eq E desc recon n p defn strict ko partial ph ser anc (before ++ (k, f) :: after) items Hp Hndo Hvis Hdis o). fold path.
    rewrite map_app, traverse_app. rewrite Hrs. cbn [bind map traverse fst]. rewrite Hx. reflexivity. }
  assert (Hget : aget k (map (fun kf : str * field => (fst kf, (snd kf, process_gen E desc recon n (snd kf) false))) defn)
                 = Some (f, process_gen E desc recon n f false)).
  { apply aget_NoDup_In; [rewrite map_map; exact Hnd|]. apply in_map_iff. exists (k, f). split; [reflexivity|].
    apply Hincl, in_or_app. right. left. reflexivity. }
  unfold sstep in Hout.
  match type of Hout with context [@aget ?T k ?d] =>
    assert (Hg2 : @aget T k d = Some (f, process_gen E desc recon n f false)) by exact Hget; rewrite Hg2 in Hout end. cbn [fst snd] in Hout. unfold decide in Hout.
  rewrite (unresolved_fparams E f Hu) in Hout. split.
  - intros [v Hv]. apply (sget_distinct (e_local E)) in Hv; [|exact Hdis]. rewrite Hv in Hout. apply Hout. reflexivity.
  - intros Habs Hpar. apply sget_None in Habs. rewrite Habs, Hpar in Hout. apply Hout. reflexivity.
Qed.

(** @example
Example C38_structure_example :
  let f := Fld p0 (KStructure (SPlain [($"a", Fld p0 (KInteger None None)); ($"b", FUndef 7)]) true None) in
  run0 f Inbound true (VDict false [(VStr $"b", VInt 1)]) = Raise (XPy UndefinedFieldError)
  /\ run0 f Inbound true (VDict false [(VStr $"a", VInt 1)]) = Raise (XPy AttributeError)
  /\ process_gen env0 nodesc norecon 0 f true Inbound true [] (VDict false [(VStr $"a", VInt 1)])
     = Ok (VDict false [(VStr $"a", VInt 1)]).
Proof. repeat split; reflexivity. Qed.
@end *)
