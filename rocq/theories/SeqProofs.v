(** * Sequence, Tuple and Union (C19, C20, C23, C30). *)
(* @imports Spec Demo *)
From Coq Require Import ZifyBool ZifyN ZifyNat.
From Verif Require Import PyBaseFacts Induct Spec Demo ProcessFacts ScalarProofs StructFacts.

Lemma process_seq_eq E desc recon n p item mn mx u partial ph ser anc v :
  process_gen E desc recon n (Fld p (KSequence item mn mx u)) partial ph ser anc v =
  process_sequence E p (item, process_gen E desc recon n item false) mn mx u ph ser
    (path_of p (KSequence item mn mx u) anc) v.
Proof.
  rewrite process_Fld. unfold process_body.
  rewrite (path_of_eq p (KSequence item mn mx u) anc) by reflexivity. reflexivity.
Qed.

Lemma has_dup_distinct E l : has_dup E l = false <->
  (forall i j x y, (i < j)%nat -> nth_error l i = Some x -> nth_error l j = Some y ->
                   veq (e_local E) y x = false).
Proof.
  induction l as [|a l IH]; cbn [has_dup].
  - split; [intros _ [|i] j x y _ H; discriminate|reflexivity].
  - rewrite orb_false_iff, IH. unfold vmem. split.
    + intros [H1 H2] [|i] [|j] x y Hij Hx Hy; cbn in Hx, Hy; try lia.
      * injection Hx as <-. apply nth_error_In in Hy.
        destruct (veq (e_local E) y a) eqn:He; [|reflexivity].
        rewrite <- H1. symmetry. apply existsb_exists. eauto.
      * apply (H2 i j); auto. lia.
    + intros H. split.
      * apply not_true_is_false. intros He. apply existsb_exists in He. destruct He as [y [Hy He]].
        apply In_nth_error in Hy. destruct Hy as [j Hj].
        specialize (H O (S j) a y ltac:(lia) eq_refl Hj). congruence.
      * intros i j x y Hij Hx Hy. apply (H (S i) (S j)); auto. lia.
Qed.

Lemma below_at_least mn z : below Z.ltb z mn = false <-> at_least Z.le mn z.
Proof.
  unfold below, at_least. destruct mn as [m|]; [rewrite Z.ltb_ge|]; split.
  - intros H m' [= <-]. exact H.
  - intros H. apply H. reflexivity.
  - discriminate.
  - reflexivity.
Qed.
Lemma above_at_most mx z : above Z.ltb z mx = false <-> at_most Z.le mx z.
Proof.
  unfold above, at_most. destruct mx as [m|]; [rewrite Z.ltb_ge|]; split.
  - intros H m' [= <-]. exact H.
  - intros H. apply H. reflexivity.
  - discriminate.
  - reflexivity.
Qed.

Lemma hashable_forallb l : forallb hashable l = true <-> Forall (fun r => hashable r = true) l.
Proof. rewrite forallb_forall, Forall_forall. reflexivity. Qed.

Lemma seq_out E desc recon n p item mn mx u partial ph ser anc l :
  p_preprocessor p = None -> defined E item ->
  let path := path_of p (KSequence item mn mx u) anc in
  let run i x := process_gen E desc recon n item false ph ser (path ++ [index_seg i]) x in
  process_gen E desc recon n (Fld p (KSequence item mn mx u)) partial ph ser anc (VList l) =
  if below Z.ltb (zlen l) mn then verr path $"min_length"
  else if above Z.ltb (zlen l) mx then verr path $"max_length"
  else do r <- collect_all (imap run 0 l);
       if negb (snd r) then serr path (VList (fst r))
       else if u then if forallb hashable (fst r)
                      then if has_dup E (fst r) then verr path $"duplicate" else Ok (VList (fst r))
                      else py TypeError
       else Ok (VList (fst r)).
Proof.
  intros Hp Hd path run. rewrite process_seq_eq. fold path. unfold process_sequence.
  rewrite is_null_some by discriminate. cbn [bind]. unfold pre_raw. rewrite Hp. cbn [bind py_iter].
  rewrite seq_loop_outs. cbn [fst snd].
  assert (Heq : imap (fun j v => wrap_undef E item (process_gen E desc recon n item false ph ser (path ++ [idx_seg j]) v)) 0 l
                = imap run 0 l).
  { generalize O. induction l as [|x l IH]; intros i; cbn [imap]; [reflexivity|].
    rewrite IH, wrap_defined, index_seg_eq by exact Hd. reflexivity. }
  rewrite Heq. reflexivity.
Qed.

(** ** C19 *)

(** @prop C19 A sequence accepts exactly the lists within the length bounds whose items are all
    accepted by the item field at their index, pairwise different if the sequence is unique; the
    result lists the results of the items in order. *)
Lemma sequence_accepts :
  forall E desc recon n p item mn mx u partial ph ser anc l r,
    p_preprocessor p = None -> defined E item ->
    let path := path_of p (KSequence item mn mx u) anc in
    let run i x := process_gen E desc recon n item false ph ser (path ++ [index_seg i]) x in
    (process_gen E desc recon n (Fld p (KSequence item mn mx u)) partial ph ser anc (VList l) = Ok r
     <-> at_least Z.le mn (Z.of_nat (length l)) /\ at_most Z.le mx (Z.of_nat (length l))
         /\ exists rs, r = VList rs
              /\ pointwise (fun i x y => run i x = Ok y) l rs
              /\ (u = true ->
                  Forall (fun y => hashable y = true) rs
                  /\ forall i j x y, (i < j)%nat -> nth_error rs i = Some x -> nth_error rs j = Some y ->
                                     veq (e_local E) y x = false)).
Proof.
  intros E desc recon n p item mn mx u partial ph ser anc l r Hp Hd path run.
  rewrite seq_out by assumption. fold path. fold run.
  change (Z.of_nat (length l)) with (zlen l). rewrite <- below_at_least, <- above_at_most.
  destruct (below Z.ltb (zlen l) mn); [split; [discriminate|intros [H _]; discriminate]|].
  destruct (above Z.ltb (zlen l) mx); [split; [discriminate|intros [_ [H _]]; discriminate]|].
  split.
  - intros H. split; [reflexivity|]. split; [reflexivity|].
    apply bind_Ok in H. destruct H as [[es b] [Hc H]]. cbn [fst snd] in H.
    apply collect_all_ok in Hc. destruct Hc as [Hrec ->].
    destruct (forallb is_ok (imap run 0 l)) eqn:Hall; cbn [negb] in H; [|discriminate].
    exists es. rewrite forallb_imap in Hall. cbn [Nat.add] in Hall.
    apply Forall2_imap in Hrec. cbn [Nat.add] in Hrec.
    assert (Hpw : pointwise (fun i x y => run i x = Ok y) l es).
    { destruct Hrec as [Hl Hr]. split; [exact Hl|]. intros i a e Ha He.
      destruct (Hr i a e Ha He) as [Hok|[x [Hx _]]]; [exact Hok|].
      destruct (Hall i a Ha) as [y Hy]. rewrite Hy in Hx. discriminate. }
    destruct u.
    + destruct (forallb hashable es) eqn:Hh; [|discriminate].
      destruct (has_dup E es) eqn:Hdup; [discriminate|]. injection H as <-.
      split; [reflexivity|]. split; [exact Hpw|]. intros _. split.
      * apply hashable_forallb, Hh.
      * apply has_dup_distinct, Hdup.
    + injection H as <-. split; [reflexivity|]. split; [exact Hpw|discriminate].
  - intros [_ [_ [rs [-> [Hpw Hu]]]]].
    assert (Hc : collect_all (imap run 0 l) = Ok (rs, true)).
    { apply collect_all_ok. split.
      - apply Forall2_imap. eapply pointwise_impl; [|exact Hpw]. intros i a b H. left. exact H.
      - symmetry. apply forallb_imap. intros j a Ha.
        destruct (nth_error rs j) as [y|] eqn:Hy.
        + exists y. apply (proj2 Hpw j a y Ha Hy).
        + apply nth_error_None in Hy. destruct Hpw as [Hl _].
          assert (j < length l)%nat by (apply nth_error_Some; congruence). lia. }
    rewrite Hc. cbn [bind fst snd negb]. destruct u; [|reflexivity].
    destruct (Hu eq_refl) as [Hh Hdd].
    apply hashable_forallb in Hh. rewrite Hh.
    apply has_dup_distinct in Hdd. rewrite Hdd. reflexivity.
Qed.

(** @example
(* [[5, 7]] is accepted by a unique sequence of integers of at least 5 with two or three items. *)
Example C19_accepts_example :
  run0 (Fld p0 (KSequence (Fld p0 (KInteger (Some 5%Z) None)) (Some 2%Z) (Some 3%Z) true))
    Inbound false (VList [VInt 5; VInt 7]) = Ok (VList [VInt 5; VInt 7]).
Proof. reflexivity. Qed.
@end *)

(** @prop C19 The rejections: a value that is not a list, a list too short or too long gives the one
    token; if some item is rejected the error structure has the length of the list, with the error of
    the item exactly at the positions of rejected items and the result at the others. *)
Lemma sequence_errors :
  forall E desc recon n p item mn mx u partial ph ser anc v,
    p_preprocessor p = None -> defined E item ->
    let path := path_of p (KSequence item mn mx u) anc in
    let run i x := process_gen E desc recon n item false ph ser (path ++ [index_seg i]) x in
    let out := process_gen E desc recon n (Fld p (KSequence item mn mx u)) partial ph ser anc v in
    ((forall l, v <> VList l) -> v <> VNone -> out = invalid_type path)
    /\ (forall l m, v = VList l -> mn = Some m -> (Z.of_nat (length l) < m)%Z ->
        out = fails path $"min_length")
    /\ (forall l m, v = VList l -> at_least Z.le mn (Z.of_nat (length l)) -> mx = Some m ->
        (m < Z.of_nat (length l))%Z -> out = fails path $"max_length")
    /\ (forall l, v = VList l ->
        at_least Z.le mn (Z.of_nat (length l)) -> at_most Z.le mx (Z.of_nat (length l)) ->
        (forall i x, nth_error l i = Some x -> orderly (run i x)) ->
        (exists i x, nth_error l i = Some x /\ rejected (run i x)) ->
        exists es, out = fails_with path (VList es)
                   /\ pointwise (fun i x e => recorded (run i x) e) l es).
Proof.
  intros E desc recon n p item mn mx u partial ph ser anc v Hp Hd path run out.
  split; [|split; [|split]].
  - intros Hl Hn. unfold out. rewrite process_seq_eq. fold path. unfold process_sequence.
    rewrite is_null_some by exact Hn. cbn [bind].
    destruct v; try reflexivity. exfalso. eapply Hl. reflexivity.
  - intros l m -> -> Hlt. unfold out. rewrite seq_out by assumption.
    unfold below. change (zlen l) with (Z.of_nat (length l)).
    apply Z.ltb_lt in Hlt. rewrite Hlt. reflexivity.
  - intros l m -> Hmn -> Hlt. unfold out. rewrite seq_out by assumption.
    apply below_at_least in Hmn. change (zlen l) with (Z.of_nat (length l)). rewrite Hmn.
    unfold above. apply Z.ltb_lt in Hlt. rewrite Hlt. reflexivity.
  - intros l -> Hmn Hmx Hord [i [x [Hx [e He]]]]. unfold out. rewrite seq_out by assumption.
    fold path. fold run.
    apply below_at_least in Hmn. apply above_at_most in Hmx.
    change (zlen l) with (Z.of_nat (length l)). rewrite Hmn, Hmx.
    destruct (collect_all (imap run 0 l)) as [[es b]|ex] eqn:Hc.
    + apply collect_all_ok in Hc. destruct Hc as [Hrec ->]. cbn [bind fst snd].
      destruct (forallb is_ok (imap run 0 l)) eqn:Hall.
      * rewrite forallb_imap in Hall. destruct (Hall i x Hx) as [y Hy].
        cbn [Nat.add] in Hy. rewrite He in Hy. discriminate.
      * exists es. split; [reflexivity|]. apply Forall2_imap in Hrec. exact Hrec.
    + exfalso. apply collect_all_raise in Hc. destruct Hc as [pre [e' [post [H1 [_ _]]]]].
      assert (Hn : nth_error (imap run 0 l) (length pre) = Some (Raise (XPy e'))).
      { rewrite H1, nth_error_app2, Nat.sub_diag by lia. reflexivity. }
      rewrite imap_nth in Hn. destruct (nth_error l (length pre)) as [y|] eqn:Hy; [|discriminate].
      cbn in Hn. injection Hn as Hn. exact (Hord _ _ Hy _ Hn).
Qed.

(** @example
(* The two items that are not integers of at least 5 are reported at their positions. *)
Example C19_errors_example :
  run0 (Fld p0 (KSequence (Fld p0 (KInteger (Some 5%Z) None)) None None false))
    Inbound false (VList [VInt 5; VInt 3; VStr $"x"])
  = fails_with [$"(sequence)"]
      (VList [VInt 5;
              VErr (Err CValidation [VDict false [(VStr $"token", VStr $"minimum")]]
                        [$"(sequence)"; $"[1]"] None true);
              VErr (Err CInvalidType [VDict false [(VStr $"token", VStr $"invalid")]]
                        [$"(sequence)"; $"[2]"] None true)]).
Proof. reflexivity. Qed.
@end *)

(** ** C20 *)

(** @prop C20 In what a unique sequence returns no two items are equal. *)
Lemma sequence_unique_result :
  forall E desc recon n p item mn mx partial ph ser anc l r,
    p_preprocessor p = None -> defined E item ->
    process_gen E desc recon n (Fld p (KSequence item mn mx true)) partial ph ser anc (VList l) = Ok r ->
    exists rs, r = VList rs
      /\ forall i j x y, (i < j)%nat -> nth_error rs i = Some x -> nth_error rs j = Some y ->
                         veq (e_local E) y x = false.
Proof.
  intros E desc recon n p item mn mx partial ph ser anc l r Hp Hd H.
  apply sequence_accepts in H; [|assumption|assumption].
  destruct H as [_ [_ [rs [-> [_ Hu]]]]]. exists rs. split; [reflexivity|]. apply Hu. reflexivity.
Qed.

(** @prop C20 If every item is accepted, with hashable results two of which are equal, the unique
    sequence is rejected with the token [duplicate]; a result that cannot be hashed is a TypeError. *)
Lemma sequence_unique_rejects :
  forall E desc recon n p item mn mx partial ph ser anc l rs,
    p_preprocessor p = None -> defined E item ->
    let path := path_of p (KSequence item mn mx true) anc in
    let run i x := process_gen E desc recon n item false ph ser (path ++ [index_seg i]) x in
    let out := process_gen E desc recon n (Fld p (KSequence item mn mx true)) partial ph ser anc (VList l) in
    at_least Z.le mn (Z.of_nat (length l)) -> at_most Z.le mx (Z.of_nat (length l)) ->
    pointwise (fun i x y => run i x = Ok y) l rs ->
    (Forall (fun y => hashable y = true) rs ->
     (exists i j x y, (i < j)%nat /\ nth_error rs i = Some x /\ nth_error rs j = Some y
                      /\ veq (e_local E) y x = true) ->
     out = fails path $"duplicate")
    /\ ((exists y, In y rs /\ hashable y = false) -> out = Raise (XPy TypeError)).
Proof.
  intros E desc recon n p item mn mx partial ph ser anc l rs Hp Hd path run out Hmn Hmx Hpw.
  assert (Hc : collect_all (imap run 0 l) = Ok (rs, true)).
  { apply collect_all_ok. split.
    - apply Forall2_imap. eapply pointwise_impl; [|exact Hpw]. intros i a b H. left. exact H.
    - symmetry. apply forallb_imap. intros j a Ha.
      destruct (nth_error rs j) as [y|] eqn:Hy.
      + exists y. apply (proj2 Hpw j a y Ha Hy).
      + apply nth_error_None in Hy. destruct Hpw as [Hl _].
        assert (j < length l)%nat by (apply nth_error_Some; congruence). lia. }
  unfold out. rewrite seq_out by assumption. fold path. fold run.
  apply below_at_least in Hmn. apply above_at_most in Hmx.
  change (zlen l) with (Z.of_nat (length l)). rewrite Hmn, Hmx, Hc. cbn [bind fst snd negb].
  split.
  - intros Hh [i [j [x [y [Hij [Hx [Hy He]]]]]]]. apply hashable_forallb in Hh. rewrite Hh.
    destruct (has_dup E rs) eqn:Hdup; [reflexivity|].
    rewrite has_dup_distinct in Hdup. rewrite (Hdup i j x y Hij Hx Hy) in He. discriminate.
  - intros [y [Hy Hh]]. destruct (forallb hashable rs) eqn:Hf; [|reflexivity].
    rewrite forallb_forall in Hf. rewrite (Hf y Hy) in Hh. discriminate.
Qed.

(** @example
(* 1 and True are equal, so the result of this sequence of anything is rejected. *)
Example C20_example :
  run0 (Fld p0 (KSequence (Fld p0 KField) None None true)) Inbound false
    (VList [VInt 1; VStr $"a"; VBool true])
  = fails [$"(sequence)"] $"duplicate".
Proof. reflexivity. Qed.
@end *)

(** @prop C20 The values without a hash are lists, dicts, surrogates, signalling NaNs and the tuples that
    hold one of these at any depth; every other value has one. *)
Lemma hashable_exact :
  forall v, hashable v = true <-> ~ unhashable v.
Proof.
  assert (Hf : forall v, hashable v = false <-> unhashable v).
  { induction v as [v IH] using val_ind'. destruct v; cbn [hashable];
      try (split; [discriminate|]; intros Hu; inversion Hu; fail);
      try (split; [intros _; constructor|reflexivity]).
    - destruct d as [? ? ?|?|? [] ?]; cbn; split; intros Hu; try discriminate; try reflexivity;
        try constructor; inversion Hu.
    - split.
      + intros Hb. destruct (existsb (fun x => negb (hashable x)) l) eqn:He.
        * apply existsb_exists in He. destruct He as [x [Hx Hn]]. apply negb_true_iff in Hn.
          apply (unhashable_tuple l x Hx). apply IH; [exact Hx|exact Hn].
        * exfalso. assert (Ht : forallb hashable l = true); [|congruence].
          apply forallb_forall. intros x Hx. destruct (hashable x) eqn:Hh; [reflexivity|].
          assert (Hc : existsb (fun x => negb (hashable x)) l = true).
          { apply existsb_exists. exists x. rewrite Hh. split; [exact Hx|reflexivity]. }
          congruence.
      + intros Hu. inversion Hu as [| | | |l' x Hx Hux]; subst l'.
        destruct (forallb hashable l) eqn:Hall; [|reflexivity].
        rewrite forallb_forall in Hall. specialize (Hall x Hx).
        apply IH in Hux; [congruence|exact Hx]. }
  intros v. split.
  - intros Hh Hu. apply Hf in Hu. congruence.
  - intros Hn. destruct (hashable v) eqn:Hh; [reflexivity|]. destruct Hn. apply Hf, Hh.
Qed.

(** @example
(* A pair with a list inside is a TypeError for a unique sequence. *)
Example C20_unhashable_example :
  run0 (Fld p0 (KSequence (Fld p0 KField) None None true)) Inbound false
    (VList [VInt 1; VTuple [VInt 2; VTuple [VList []]]])
  = Raise (XPy TypeError)
  /\ unhashable (VTuple [VInt 2; VTuple [VList []]]).
Proof.
  split; [reflexivity|]. apply (unhashable_tuple _ (VTuple [VList []])); [cbn; auto|].
  apply (unhashable_tuple _ (VList [])); [cbn; auto|constructor].
Qed.
@end *)

(** ** C23 *)

Lemma process_tuple_eq E desc recon n p fs partial ph ser anc v :
  process_gen E desc recon n (Fld p (KTuple fs)) partial ph ser anc v =
  process_tuple E p (map (fun g => (g, process_gen E desc recon n g false)) fs) ph ser
    (path_of p (KTuple fs) anc) v.
Proof.
  rewrite process_Fld. unfold process_body.
  rewrite (path_of_eq p (KTuple fs) anc) by reflexivity. reflexivity.
Qed.

Definition list_or_tuple (v : val) (l : list val) : Prop := v = VList l \/ v = VTuple l.

Lemma tuple_out E desc recon n p fs partial ph ser anc v l :
  p_preprocessor p = None -> Forall (defined E) fs ->
  v = VList l \/ v = VTuple l ->
  let path := path_of p (KTuple fs) anc in
  let run i (fx : field * val) :=
      process_gen E desc recon n (fst fx) false ph ser (path ++ [index_seg i]) (snd fx) in
  process_gen E desc recon n (Fld p (KTuple fs)) partial ph ser anc v =
  if Nat.eqb (length l) (length fs) then
    do r <- collect_all (imap run 0 (combine fs l));
    if snd r then Ok (VTuple (fst r)) else serr path (VList (fst r))
  else verr path $"length".
Proof.
  intros Hp Hd Hv path run. rewrite process_tuple_eq. fold path. unfold process_tuple.
  rewrite is_null_some by (destruct Hv as [-> | ->]; discriminate). cbn [bind].
  unfold pre_raw. rewrite Hp.
  assert (Hv2 : match v with VList _ | VTuple _ => True | _ => False end) by (destruct Hv as [-> | ->]; exact I).
  assert (Hit : py_iter v = Some l) by (destruct Hv as [-> | ->]; reflexivity).
  assert (Hix : forall i, py_index E v i = match nth_error l i with Some x => Ok x | None => py IndexError end)
    by (destruct Hv as [-> | ->]; reflexivity).
  match goal with |- match v with VList _ => ?a | VTuple _ => _ | _ => _ end = ?b =>
    transitivity a; [destruct Hv as [-> | ->]; reflexivity|] end.
  cbn [bind]. rewrite Hit. rewrite map_length.
  destruct (Nat.eqb (length l) (length fs)) eqn:Hlen; [|reflexivity].
  apply Nat.eqb_eq in Hlen.
  rewrite (tuple_loop_outs E _ ph ser path 0 v l).
  2:{ intros j _. apply Hix. }
  2:{ rewrite map_length. congruence. }
  assert (Heq : forall i l', imap (fun j (cv : child * val) => wrap_undef E (fst (fst cv))
                    (snd (fst cv) ph ser (path ++ [idx_seg j]) (snd cv))) i
                  (combine (map (fun g => (g, process_gen E desc recon n g false)) fs) l')
                = imap run i (combine fs l')).
  { clear - Hd. induction fs as [|f fs IH]; intros i [|x l']; cbn [map combine imap fst snd]; try reflexivity.
    inversion Hd; subst. rewrite IH, wrap_defined, index_seg_eq by assumption. reflexivity. }
  rewrite Heq. reflexivity.
Qed.

Lemma nth_error_combine {A B} (l : list A) (m : list B) i :
  nth_error (combine l m) i =
  match nth_error l i, nth_error m i with Some a, Some b => Some (a, b) | _, _ => None end.
Proof.
  revert m i. induction l as [|a l IH]; intros [|b m] [|i]; cbn; auto.
  - destruct (nth_error l i); reflexivity.
Qed.

(** @prop C23 A tuple field accepts exactly the lists and tuples with one value per field, each
    accepted by its field at its index; the result is the tuple of the results. *)
Lemma tuple_accepts :
  forall E desc recon n p fs partial ph ser anc v l r,
    p_preprocessor p = None -> Forall (defined E) fs -> v = VList l \/ v = VTuple l ->
    let path := path_of p (KTuple fs) anc in
    let run i f x := process_gen E desc recon n f false ph ser (path ++ [index_seg i]) x in
    (process_gen E desc recon n (Fld p (KTuple fs)) partial ph ser anc v = Ok r
     <-> length l = length fs
         /\ exists rs, r = VTuple rs /\ length rs = length l
              /\ forall i f x y, nth_error fs i = Some f -> nth_error l i = Some x ->
                                 nth_error rs i = Some y -> run i f x = Ok y).
Proof.
  intros E desc recon n p fs partial ph ser anc v l r Hp Hd Hv path run.
  rewrite (tuple_out E desc recon n p fs partial ph ser anc v l) by assumption. fold path.
  set (run' := fun i (fx : field * val) => process_gen E desc recon n (fst fx) false ph ser (path ++ [index_seg i]) (snd fx)).
  destruct (Nat.eqb (length l) (length fs)) eqn:Hlen.
  2:{ apply Nat.eqb_neq in Hlen. split; [discriminate|]. intros [H _]. contradiction. }
  apply Nat.eqb_eq in Hlen. split.
  - intros H. split; [exact Hlen|]. apply bind_Ok in H. destruct H as [[es b] [Hc H]].
    cbn [fst snd] in H. apply collect_all_ok in Hc. destruct Hc as [Hrec ->].
    destruct (forallb is_ok (imap run' 0 (combine fs l))) eqn:Hall; [|discriminate].
    injection H as <-. exists es. split; [reflexivity|].
    apply Forall2_imap in Hrec. destruct Hrec as [Hl Hr].
    rewrite combine_length, <- Hlen, Nat.min_id in Hl. split; [congruence|].
    intros i f x y Hf Hx Hy.
    assert (Hc : nth_error (combine fs l) i = Some (f, x)) by (rewrite nth_error_combine, Hf, Hx; reflexivity).
    rewrite forallb_imap in Hall. destruct (Hall i (f, x) Hc) as [z Hz].
    destruct (Hr i (f, x) y Hc Hy) as [Hok|[e [He _]]]; [exact Hok|].
    rewrite Hz in He. discriminate.
  - intros [_ [rs [-> [Hl Hr]]]].
    assert (Hc : collect_all (imap run' 0 (combine fs l)) = Ok (rs, true)).
    { assert (Hpw : pointwise (fun i fx y => run' i fx = Ok y) (combine fs l) rs).
      { split; [rewrite combine_length; lia|]. intros i [f x] y Hfx Hy.
        rewrite nth_error_combine in Hfx.
        destruct (nth_error fs i) eqn:Hf; [|discriminate].
        destruct (nth_error l i) eqn:Hx; [|discriminate]. injection Hfx as -> ->.
        apply (Hr i f x y); assumption. }
      apply collect_all_ok. split.
      - apply Forall2_imap. eapply pointwise_impl; [|exact Hpw]. intros i a b H. left. exact H.
      - symmetry. apply forallb_imap. intros j a Ha.
        destruct (nth_error rs j) as [y|] eqn:Hy.
        + exists y. apply (proj2 Hpw j a y Ha Hy).
        + apply nth_error_None in Hy. destruct Hpw as [Hl' _].
          assert (j < length (combine fs l))%nat by (apply nth_error_Some; congruence). lia. }
    rewrite Hc. reflexivity.
Qed.

(** @example
(* A pair of an integer and a text. *)
Example C23_accepts_example :
  run0 (Fld p0 (KTuple [Fld p0 (KInteger None None); Fld p0 (KText None None None true)]))
    Inbound false (VList [VInt 5; VStr $" a "]) = Ok (VTuple [VInt 5; VStr $"a"]).
Proof. reflexivity. Qed.
@end *)

(** @prop C23 The rejections of a tuple field: wrong type, wrong number of values, or one entry per
    value, with the error of the value exactly at the positions of the rejected ones. *)
Lemma tuple_errors :
  forall E desc recon n p fs partial ph ser anc v,
    p_preprocessor p = None -> Forall (defined E) fs ->
    let path := path_of p (KTuple fs) anc in
    let run i f x := process_gen E desc recon n f false ph ser (path ++ [index_seg i]) x in
    let out := process_gen E desc recon n (Fld p (KTuple fs)) partial ph ser anc v in
    ((forall l, v <> VList l) -> (forall l, v <> VTuple l) -> v <> VNone -> out = invalid_type path)
    /\ (forall l, v = VList l \/ v = VTuple l -> length l <> length fs -> out = fails path $"length")
    /\ (forall l, v = VList l \/ v = VTuple l -> length l = length fs ->
        (forall i f x, nth_error fs i = Some f -> nth_error l i = Some x -> orderly (run i f x)) ->
        (exists i f x, nth_error fs i = Some f /\ nth_error l i = Some x /\ rejected (run i f x)) ->
        exists es, out = fails_with path (VList es) /\ length es = length l
          /\ forall i f x e, nth_error fs i = Some f -> nth_error l i = Some x ->
                             nth_error es i = Some e -> recorded (run i f x) e).
Proof.
  intros E desc recon n p fs partial ph ser anc v Hp Hd path run out.
  split; [|split].
  - intros Hl Ht Hn. unfold out. rewrite process_tuple_eq. fold path. unfold process_tuple.
    rewrite is_null_some by exact Hn. cbn [bind].
    destruct v; try reflexivity; exfalso; [eapply Hl|eapply Ht]; reflexivity.
  - intros l Hv Hlen. unfold out. rewrite (tuple_out E desc recon n p fs partial ph ser anc v l) by assumption.
    apply Nat.eqb_neq in Hlen. rewrite Hlen. reflexivity.
  - intros l Hv Hlen Hord [i [f [x [Hf [Hx [e He]]]]]]. unfold out.
    rewrite (tuple_out E desc recon n p fs partial ph ser anc v l) by assumption. fold path.
    set (run' := fun i (fx : field * val) => process_gen E desc recon n (fst fx) false ph ser (path ++ [index_seg i]) (snd fx)).
    assert (Hlen' := Hlen). apply Nat.eqb_eq in Hlen'. rewrite Hlen'. clear Hlen'.
    destruct (collect_all (imap run' 0 (combine fs l))) as [[es b]|ex] eqn:Hc.
    + apply collect_all_ok in Hc. destruct Hc as [Hrec ->]. cbn [bind fst snd].
      destruct (forallb is_ok (imap run' 0 (combine fs l))) eqn:Hall.
      * rewrite forallb_imap in Hall.
        assert (Hc : nth_error (combine fs l) i = Some (f, x)) by (rewrite nth_error_combine, Hf, Hx; reflexivity).
        destruct (Hall i (f, x) Hc) as [y Hy].
        change (run i f x = Ok y) in Hy. rewrite He in Hy. discriminate.
      * exists es. split; [reflexivity|]. apply Forall2_imap in Hrec. destruct Hrec as [Hl Hr].
        rewrite combine_length in Hl. split; [lia|].
        intros j g y z Hg Hy Hz. apply (Hr j (g, y) z); [|exact Hz].
        rewrite nth_error_combine, Hg, Hy. reflexivity.
    + exfalso. apply collect_all_raise in Hc. destruct Hc as [pre [e' [post [H1 [_ _]]]]].
      assert (Hn : nth_error (imap run' 0 (combine fs l)) (length pre) = Some (Raise (XPy e'))).
      { rewrite H1, nth_error_app2, Nat.sub_diag by lia. reflexivity. }
      rewrite imap_nth, nth_error_combine in Hn.
      destruct (nth_error fs (length pre)) as [g|] eqn:Hg; [|discriminate].
      destruct (nth_error l (length pre)) as [y|] eqn:Hy; [|discriminate].
      cbn in Hn. injection Hn as Hn. exact (Hord _ _ _ Hg Hy _ Hn).
Qed.

(** @example
(* The second value is not a text; a pair of three values has the wrong length. *)
Example C23_errors_example :
  run0 (Fld p0 (KTuple [Fld p0 (KInteger None None); Fld p0 (KText None None None true)]))
    Inbound false (VTuple [VInt 5; VInt 6])
  = fails_with [$"(tuple)"]
      (VList [VInt 5; VErr (Err CInvalidType [VDict false [(VStr $"token", VStr $"invalid")]]
                                [$"(tuple)"; $"[1]"] None true)])
  /\ run0 (Fld p0 (KTuple [Fld p0 (KInteger None None); Fld p0 (KText None None None true)]))
    Inbound false (VTuple [VInt 5; VInt 6; VInt 7]) = fails [$"(tuple)"] $"length".
Proof. split; reflexivity. Qed.
@end *)

(** ** C30 *)

Lemma process_union_eq E desc recon n p fs partial ph ser anc v :
  v <> VNone ->
  process_gen E desc recon n (Fld p (KUnion fs)) partial ph ser anc v =
  union_loop E (map (fun g => (g, process_gen E desc recon n g false)) fs) ph ser
    (path_of p (KUnion fs) anc) v.
Proof.
  intros Hv. rewrite process_Fld. unfold process_body.
  rewrite (path_of_eq p (KUnion fs) anc) by reflexivity. cbn [kmap]. unfold process_union.
  rewrite is_null_some by exact Hv. reflexivity.
Qed.

(** @prop C30 A union returns the outcome, success or not, of the first of its fields that does not
    raise InvalidTypeError; if all of them do, it raises InvalidTypeError itself. *)
Lemma union_exact :
  forall E desc recon n p fs partial ph ser anc v,
    Forall (defined E) fs -> v <> VNone ->
    let path := path_of p (KUnion fs) anc in
    let run f := process_gen E desc recon n f false ph ser path v in
    let out := process_gen E desc recon n (Fld p (KUnion fs)) partial ph ser anc v in
    let wrong_type f := exists e, run f = Raise (XErr e) /\ er_cls e = CInvalidType in
    (forall before f after, fs = before ++ f :: after -> Forall wrong_type before -> ~ wrong_type f ->
       out = run f)
    /\ (Forall wrong_type fs -> out = invalid_type path).
Proof.
  intros E desc recon n p fs partial ph ser anc v Hd Hv path run out wrong_type.
  assert (Hout : out = union_loop E (map (fun g => (g, process_gen E desc recon n g false)) fs) ph ser path v)
    by (apply process_union_eq; exact Hv).
  rewrite Hout. clear Hout out. clearbody path.
  induction fs as [|g fs IH].
  - split; [intros [|b bs] f after H; discriminate|]. reflexivity.
  - inversion Hd as [|? ? Hg Hfs]; subst. specialize (IH Hfs).
    cbn [map union_loop fst snd]. rewrite wrap_defined by exact Hg.
    change (process_gen E desc recon n g false ph ser path v) with (run g).
    split.
    + intros [|b bs] f after Heq Hb Hf; cbn in Heq; injection Heq as -> Heq.
      * destruct (run f) as [r|[e|x]] eqn:Hr; try reflexivity.
        destruct (er_cls e) eqn:Hc; try reflexivity. exfalso. apply Hf. exists e. auto.
      * inversion Hb as [|? ? Hb1 Hb2]; subst. destruct Hb1 as [e [Hr Hc]].
        rewrite Hr, Hc. apply (proj1 IH bs f after); auto.
    + intros Hall. inversion Hall as [|? ? Hb1 Hb2]; subst. destruct Hb1 as [e [Hr Hc]].
      rewrite Hr, Hc. apply IH. exact Hb2.
Qed.

(** @example
(* [Integer(minimum=5) | Integer | Text]: 3 is rejected by the first field with a ValidationError,
   so the second, which would accept it, is not reached; a text reaches the third; a float none. *)
Example C30_example :
  let u := Fld p0 (KUnion [Fld p0 (KInteger (Some 5%Z) None); Fld p0 (KInteger None None);
                           Fld p0 (KText None None None true)]) in
  run0 u Inbound false (VInt 3) = fails [$"(union)"] $"minimum"
  /\ run0 u Inbound false (VStr $"x") = Ok (VStr $"x")
  /\ run0 u Inbound false (VFloat (S754_zero false)) = invalid_type [$"(union)"].
Proof. repeat split; reflexivity. Qed.
@end *)
