(** * Equality of values (C91). *)
(* @imports Spec Demo CalSpec EqSpec *)
From Coq Require Import ZifyBool ZifyN ZifyNat.
From Verif Require Import PyBaseFacts ProcessFacts Induct Spec Demo ScalarProofs NumProofs SeqProofs CalSpec CalFacts CalProofs EqSpec.
Open Scope Z_scope.
Ltac Zify.zify_post_hook ::= Z.div_mod_to_equations.

(** ** Numbers *)

Lemma quantity_num a x : quantity a x -> exists y, num_of a = Some (NQ y) /\ (y == x)%Q.
Proof.
  intros H. destruct H; cbn [num_of]; eexists; (split; [reflexivity|]); try reflexivity.
  - apply num_of_float_Q. reflexivity.
  - apply num_of_dec_Q. reflexivity.
Qed.

Lemma num_quantity a y : num_of a = Some (NQ y) -> exists x, quantity a x /\ (y == x)%Q.
Proof.
  destruct a; try discriminate; cbn [num_of].
  - intros [= <-]. destruct b; eexists; (split; [constructor|reflexivity]).
  - intros [= <-]. eexists; (split; [constructor|reflexivity]).
  - destruct f as [s|s| |s m e]; intros H; try discriminate H.
    + injection H as <-. eexists; (split; [constructor|reflexivity]).
    + eexists. split; [constructor|]. apply num_of_float_Q. congruence.
  - destruct d as [neg c e| |]; intros H; try discriminate H.
    eexists. split; [constructor|]. apply num_of_dec_Q. congruence.
Qed.

Lemma infinity_num a s : infinity_of a s <-> num_of a = Some (NInf s).
Proof.
  split.
  - intros H. destruct H; reflexivity.
  - destruct a; try discriminate; cbn [num_of].
    + destruct f; intros H; try discriminate H. injection H as <-. constructor.
    + destruct d; intros H; try discriminate H. injection H as <-. constructor.
Qed.

Lemma veq_num L a m : num_of a = Some m ->
  forall b, veq L a b = match num_of b with Some n => num_eqb m n | None => false end.
Proof. destruct a; try discriminate; intros [= <-] b'; reflexivity. Qed.

Lemma equal_numbers L a b m n : num_of a = Some m -> num_of b = Some n ->
  num_eqb m n = true <-> equal L a b.
Proof.
  intros Ha Hb. split.
  - intros H. destruct m as [x|s|], n as [y|t|]; try discriminate H; cbn [num_eqb] in H.
    + apply num_quantity in Ha. apply num_quantity in Hb. destruct Ha as [x' [Ha Hx]], Hb as [y' [Hb Hy]].
      apply Qeq_bool_iff in H. apply (equal_number L a b x' y'); auto. rewrite <- Hx, <- Hy. exact H.
    + apply eqb_prop in H. subst t. apply (equal_infinity L a b s); apply infinity_num; assumption.
  - intros H. destruct H as [ |a b x y Hx Hy Hq|a b s Hx Hy| | | | | | | |a b x y Hx Hy Hl Hf| ]; try discriminate.
    + apply quantity_num in Hx. apply quantity_num in Hy. destruct Hx as [x' [Hx Hx']], Hy as [y' [Hy Hy']].
      rewrite Ha in Hx. rewrite Hb in Hy. injection Hx as ->. injection Hy as ->. cbn [num_eqb].
      apply Qeq_bool_iff. rewrite Hx', Hy'. exact Hq.
    + apply infinity_num in Hx. apply infinity_num in Hy. rewrite Ha in Hx. rewrite Hb in Hy.
      injection Hx as ->. injection Hy as ->. cbn [num_eqb]. apply eqb_reflx.
    + destruct Hx; discriminate Ha.
Qed.

(** ** Dates and times *)

Lemma date_eqb_iff a b : date_eqb a b = true <-> a = b.
Proof.
  unfold date_eqb. destruct a as [y m d], b as [y' m' d']. cbn [d_year d_month d_day]. split.
  - intros H. f_equal; lia.
  - intros [= -> -> ->]. lia.
Qed.

Lemma tod_eqb_iff a b : tod_eqb a b = true <-> a = b.
Proof.
  unfold tod_eqb. destruct a as [h m x u], b as [h' m' x' u']. cbn [t_hour t_min t_sec t_us]. split.
  - intros H. f_equal; lia.
  - intros [= -> -> -> ->]. lia.
Qed.

Lemma dt_eqb_iff L a b : existing a -> existing b -> dt_eqb L a b = true <-> same_moment L a b.
Proof.
  intros Ha Hb.
  assert (Hi : forall x y, dt_tz a = Some x -> dt_tz b = Some y ->
     ((dt_secs a - utcoffset L x (dt_secs a) =? dt_secs b - utcoffset L y (dt_secs b))
       && (t_us (dt_time a) =? t_us (dt_time b)) = true
      <-> exists i, instant L true a i /\ instant L true b i)).
  { intros x y Hx Hy.
    assert (Ia : inst L true a = dt_secs a - utcoffset L x (dt_secs a)) by (unfold inst, zone_of; rewrite Hx; reflexivity).
    assert (Ib : inst L true b = dt_secs b - utcoffset L y (dt_secs b)) by (unfold inst, zone_of; rewrite Hy; reflexivity).
    rewrite <- Ia, <- Ib. assert (Ua : 0 <= t_us (dt_time a) <= 999999) by apply Ha.
    assert (Ub : 0 <= t_us (dt_time b) <= 999999) by apply Hb. split.
    - intros H. exists (inst L true a * 1000000 + t_us (dt_time a)). rewrite !instant_spec by assumption. lia.
    - intros [i [H1 H2]]. rewrite instant_spec in H1, H2 by assumption. lia. }
  assert (Hw : wall_eqb a b = true <-> dt_date a = dt_date b /\ dt_time a = dt_time b).
  { unfold wall_eqb. rewrite andb_true_iff, date_eqb_iff, tod_eqb_iff. reflexivity. }
  assert (Hu : dt_tz a = Some TzUTC -> dt_tz b = Some TzUTC ->
               (exists i, instant L true a i /\ instant L true b i) -> wall_eqb a b = true).
  { intros Hx Hy [i [H1 H2]]. rewrite instant_spec in H1, H2 by assumption.
    unfold inst, zone_of in H1, H2. rewrite Hx in H1. rewrite Hy in H2. cbn [utcoffset] in H1, H2.
    assert (Hm : micros a = micros b) by (unfold micros; lia).
    pose proof (wall_ltb_spec a b Ha Hb) as H3. pose proof (wall_ltb_spec b a Hb Ha) as H4.
    rewrite Hm, Z.ltb_irrefl in H3. rewrite Hm, Z.ltb_irrefl in H4.
    unfold wall_ltb, wall_eqb, date_ltb, date_eqb, tod_ltb, tod_eqb in *. lia. }
  unfold dt_eqb. destruct a as [da ta za], b as [db tb zb]. cbn [dt_tz dt_date dt_time] in *.
  destruct za as [x|], zb as [y|].
  - specialize (Hi x y eq_refl eq_refl). destruct (tz_is x y) eqn:Ht.
    + apply tz_is_eq in Ht as Hxy. subst y. rewrite Hw. split.
      * intros [-> ->]. destruct x; try discriminate Ht; constructor.
      * intros H. inversion H as [? ?|? ?|? ?|? ? x' y' i Hx' Hy' Hn H1 H2]; subst; auto. cbn [dt_tz] in Hx', Hy'.
        injection Hx' as <-. injection Hy' as <-.
        destruct x; try discriminate Ht; [|exfalso; auto].
        apply Hw, Hu; eauto.
    + rewrite Hi. split.
      * intros [i [H1 H2]]. apply (same_instant L _ _ x y i); auto. intros [-> ->]. discriminate Ht.
      * intros H. inversion H; subst; try discriminate Ht. eauto.
  - split; [discriminate|]. intros H. inversion H; subst. discriminate.
  - split; [discriminate|]. intros H. inversion H; subst. discriminate.
  - rewrite Hw. split; [intros [-> ->]; constructor|]. intros H. inversion H; subst; auto. discriminate.
Qed.

(** ** All values *)

Lemma entries_as_dict a l : entries_of a l <-> as_dict a = Some l.
Proof.
  split; [intros H; destruct H; reflexivity|]. destruct a; try discriminate; intros [= <-]; constructor.
Qed.

Lemma as_dict_num a l : as_dict a = Some l -> num_of a = None.
Proof. destruct a; try discriminate; reflexivity. Qed.

Lemma veq_dict L a x : as_dict a = Some x -> forall b,
  veq L a b = match as_dict b with
              | Some y => Nat.eqb (length x) (length y)
                  && forallb (fun kv => existsb (fun kw => veq L (fst kv) (fst kw)
                                                            && veq L (snd kv) (snd kw)) y) x
              | None => false
              end.
Proof. destruct a; try discriminate; intros [= <-] b'; reflexivity. Qed.

Lemma dated_items v : dated v -> forall l, v = VList l \/ v = VTuple l -> Forall dated l.
Proof.
  intros H l Hl. destruct H as [|l' H|l' H|a l' He H|w H]; destruct Hl as [Hl|Hl]; try discriminate Hl.
  - injection Hl as <-. exact H.
  - injection Hl as <-. exact H.
  - subst. inversion He.
  - subst. inversion He.
  - subst. destruct H.
  - subst. destruct H.
Qed.

Lemma dated_entries v : dated v -> forall l, as_dict v = Some l -> Forall (fun kv => dated (fst kv) /\ dated (snd kv)) l.
Proof.
  intros H l Hl. destruct H as [|l' H|l' H|a l' He H|w H]; try discriminate Hl.
  - apply entries_as_dict in He. congruence.
  - destruct w; try discriminate Hl; destruct H.
Qed.

Lemma dated_moment dt : dated (VDateTime dt) -> existing dt.
Proof. intros H. inversion H as [? He| | |? ? He|? He]; subst; auto; [inversion He|destruct He]. Qed.

(** Item by item. *)
Lemma veq_list L x : forall y, veq L (VList x) (VList y) = list_eqb (veq L) x y.
Proof. induction x as [|u x IH]; intros [|w y]; try reflexivity. cbn [list_eqb]. rewrite <- IH. reflexivity. Qed.
Lemma veq_tuple L x : forall y, veq L (VTuple x) (VTuple y) = list_eqb (veq L) x y.
Proof. induction x as [|u x IH]; intros [|w y]; try reflexivity. cbn [list_eqb]. rewrite <- IH. reflexivity. Qed.

Lemma items_equal L x :
  (forall u, In u x -> forall w, dated w -> veq L u w = true <-> equal L u w) ->
  forall y, Forall dated y -> list_eqb (veq L) x y = true <-> Forall2 (equal L) x y.
Proof.
  intros Hx. induction x as [|u x IH]; intros y Hy; destruct Hy as [|w y Hw Hy]; cbn [list_eqb].
  - split; auto.
  - split; [discriminate|intros H; inversion H].
  - split; [discriminate|intros H; inversion H].
  - rewrite andb_true_iff, (Hx u (or_introl eq_refl) w Hw), (IH (fun v Hv => Hx v (or_intror Hv)) y Hy).
    split; [intros [H1 H2]; constructor; assumption|intros H; inversion H; auto].
Qed.

(** @prop C91 Two values are equal exactly when they are the same null, text, bytes, date, time or object,
    the same number, the same moment, or containers of the same kind with equal contents. *)
Lemma equality_exact :
  forall L a b, dated a -> dated b -> (veq L a b = true <-> equal L a b).
Proof.
  intros L. induction a as [a IH] using val_ind'. intros b Ha Hb.
  destruct (num_of a) as [m|] eqn:Hm.
  { rewrite (veq_num L a m Hm). destruct (num_of b) as [n|] eqn:Hn; [apply equal_numbers; assumption|].
    split; [discriminate|]. intros H.
    destruct H as [ |a b x y Hx Hy Hq|a b s Hx Hy| | | | | | | |a b x y Hx Hy Hl Hf| ]; try discriminate.
    - apply quantity_num in Hy. destruct Hy as [? [Hy _]]. congruence.
    - apply infinity_num in Hy. congruence.
    - destruct Hx; discriminate. }
  destruct (as_dict a) as [x|] eqn:Hd.
  { rewrite (veq_dict L a x Hd). pose proof (dated_entries a Ha x Hd) as Hax.
    assert (Hsub : forall k w, In (k, w) x -> In k (subvals a) /\ In w (subvals a)).
    { assert (subvals a = flat_map (fun kv => [fst kv; snd kv]) x)
        by (destruct a; try discriminate Hd; cbn in Hd; injection Hd as <-; reflexivity).
      rewrite H. intros k w Hi. split; apply in_flat_map; exists (k, w); cbn; auto. }
    rewrite Forall_forall in Hax. split.
    - intros H. destruct (as_dict b) as [y|] eqn:He; [|discriminate].
      apply andb_true_iff in H. destruct H as [H1 H2]. apply Nat.eqb_eq in H1.
      pose proof (dated_entries b Hb y He) as Hby. rewrite Forall_forall in Hby. rewrite forallb_forall in H2.
      apply entries_as_dict in Hd. apply entries_as_dict in He.
      apply (equal_dict L a b x y Hd He H1). apply Forall_forall. intros [k w] Hi.
      specialize (H2 _ Hi). apply existsb_exists in H2. destruct H2 as [[k' w'] [Hj H2]]. cbn [fst snd] in *.
      apply andb_true_iff in H2. destruct H2 as [H2 H3]. exists (k', w'). cbn [fst snd]. split; [exact Hj|].
      destruct (Hsub _ _ Hi) as [S1 S2], (Hax _ Hi) as [A1 A2], (Hby _ Hj) as [B1 B2]. cbn [fst snd] in *.
      split; [apply (IH _ S1)|apply (IH _ S2)]; assumption.
    - intros H. destruct H as [ |a b x' y Hx Hy Hq|a b s Hx Hy| | | | | | | |a b x' y Hx Hy Hl Hf| ]; try discriminate.
      + destruct Hx; discriminate.
      + destruct Hx; discriminate.
      + apply entries_as_dict in Hx. apply entries_as_dict in Hy as Hy'. rewrite Hd in Hx. injection Hx as <-. rewrite Hy'.
        pose proof (dated_entries b Hb y Hy') as Hby. rewrite Forall_forall in Hby, Hf.
        apply andb_true_iff. split; [apply Nat.eqb_eq, Hl|]. apply forallb_forall. intros [k w] Hi.
        destruct (Hf _ Hi) as [[k' w'] [Hj [H1 H2]]]. apply existsb_exists. exists (k', w'). split; [exact Hj|].
        destruct (Hsub _ _ Hi) as [S1 S2], (Hax _ Hi) as [A1 A2], (Hby _ Hj) as [B1 B2]. cbn [fst snd] in *.
        apply andb_true_iff. split; [apply (IH _ S1)|apply (IH _ S2)]; assumption. }
  assert (Hinv : equal L a b ->
    match a with
    | VNone => b = VNone
    | VStr s => b = VStr s
    | VBytes s => b = VBytes s
    | VDate d => b = VDate d
    | VTime t => b = VTime t
    | VDateTime x => exists y, b = VDateTime y /\ same_moment L x y
    | VList x => exists y, b = VList y /\ Forall2 (equal L) x y
    | VTuple x => exists y, b = VTuple y /\ Forall2 (equal L) x y
    | VObj i _ => exists attrs, b = VObj i attrs
    | _ => False
    end).
  { intros H. destruct H as [ |a b x y Hx Hy Hq|a b s Hx Hy| | | | | | | |a b x' y Hx Hy Hl Hf| ]; eauto.
    - destruct Hx; discriminate.
    - destruct Hx; discriminate.
    - destruct Hx; discriminate. }
  destruct a as [ | | | |s|s| |d|t|dt|l|l|o l|i l|i s w l|e|f]; try discriminate Hm; try discriminate Hd; cbn [veq].
  - split; [destruct b; try discriminate; constructor|]. intros H. apply Hinv in H. subst. reflexivity.
  - split.
    + destruct b; try discriminate. intros H. apply str_eqb_eq in H. subst. constructor.
    + intros H. apply Hinv in H. subst. apply str_eqb_eq. reflexivity.
  - split.
    + destruct b; try discriminate. intros H. apply str_eqb_eq in H. subst. constructor.
    + intros H. apply Hinv in H. subst. apply str_eqb_eq. reflexivity.
  - split.
    + destruct b; try discriminate. intros H. apply date_eqb_iff in H. subst. constructor.
    + intros H. apply Hinv in H. subst. apply date_eqb_iff. reflexivity.
  - split.
    + destruct b; try discriminate. intros H. apply tod_eqb_iff in H. subst. constructor.
    + intros H. apply Hinv in H. subst. apply tod_eqb_iff. reflexivity.
  - split.
    + destruct b; try discriminate. intros H. constructor. apply dt_eqb_iff; [apply dated_moment, Ha|apply dated_moment, Hb|exact H].
    + intros H. apply Hinv in H. destruct H as [y [-> H]]. apply dt_eqb_iff; [apply dated_moment, Ha|apply dated_moment, Hb|exact H].
  - pose proof (dated_items _ Ha l (or_introl eq_refl)) as Hl. rewrite Forall_forall in Hl.
    assert (Hit := items_equal L l (fun u Hu w => IH u Hu w (Hl u Hu))).
    split.
    + destruct b; try discriminate. intros H. constructor. change (veq L (VList l) (VList l0) = true) in H.
      rewrite veq_list in H. apply Hit; [exact (dated_items _ Hb l0 (or_introl eq_refl))|exact H].
    + intros H. apply Hinv in H. destruct H as [y [-> H]]. change (veq L (VList l) (VList y) = true).
      rewrite veq_list. apply Hit in H; [exact H|exact (dated_items _ Hb y (or_introl eq_refl))].
  - pose proof (dated_items _ Ha l (or_intror eq_refl)) as Hl. rewrite Forall_forall in Hl.
    assert (Hit := items_equal L l (fun u Hu w => IH u Hu w (Hl u Hu))).
    split.
    + destruct b; try discriminate. intros H. constructor. change (veq L (VTuple l) (VTuple l0) = true) in H.
      rewrite veq_tuple in H. apply Hit; [exact (dated_items _ Hb l0 (or_intror eq_refl))|exact H].
    + intros H. apply Hinv in H. destruct H as [y [-> H]]. change (veq L (VTuple l) (VTuple y) = true).
      rewrite veq_tuple. apply Hit in H; [exact H|exact (dated_items _ Hb y (or_intror eq_refl))].
  - split.
    + destruct b; try discriminate. intros H. apply Nat.eqb_eq in H. subst. constructor.
    + intros H. apply Hinv in H. destruct H as [? ->]. apply Nat.eqb_eq. reflexivity.
  - split; [discriminate|intros H; exact (False_ind _ (Hinv H))].
  - split; [discriminate|intros H; exact (False_ind _ (Hinv H))].
Qed.

(** @example
(* True, 1, 1.0 and Decimal('1.00') are equal; a noon in UTC and the same instant at +02:00 too. *)
Example C91_equality_exact_example :
  let one := VFloat (S754_finite false 4503599627370496 (-52)) in
  let a := DateTime (Date 2020 1 1) (Tod 12 0 0 0) (Some TzUTC) in
  let b := DateTime (Date 2020 1 1) (Tod 14 0 0 0) (Some (TzFixed 120)) in
  equal (e_local env0) (VList [VBool true; VInt 1; one; VDateTime a]) (VList [one; VDec (DFin false 100 (-2)); VInt 1; VDateTime b])
  /\ ~ equal (e_local env0) (VTime (Tod 1 2 3 4)) (VTime (Tod 1 2 3 5))
  /\ ~ equal (e_local env0) (VList [VInt 1]) (VTuple [VInt 1]).
Proof.
  assert (D : forall y m d h x u t z, existing (DateTime (Date y m d) (Tod h x u t) z) -> dated (VDateTime (DateTime (Date y m d) (Tod h x u t) z)))
    by (intros; constructor; assumption).
  assert (Ht : forall h, (0 <= h <= 23)%Z -> forall z, existing (DateTime (Date 2020 1 1) (Tod h 0 0 0) z)).
  { intros h Hh z. split; [split; [cbn; split; discriminate|]|].
    - exists 31%Z. split; [constructor; cbn; auto|cbn; split; discriminate].
    - split; [exact Hh|]. cbn. repeat split; discriminate. }
  split; [|split].
  - refine (proj1 (C91_equality_exact _ _ _ _ _) _); [| |vm_compute; reflexivity];
      constructor; repeat apply Forall_cons; try apply Forall_nil; try (apply dated_other; exact I);
      apply D, Ht; split; discriminate.
  - intros H. apply C91_equality_exact in H; try (apply dated_other; exact I). vm_compute in H. discriminate.
  - intros H. apply C91_equality_exact in H; try (constructor; repeat constructor; apply dated_other; exact I). vm_compute in H. discriminate.
Qed.
@end *)

(** @prop C91 Enumeration: a value equal to an ignored one is null, any other value is accepted, unchanged,
    exactly when it is equal to a member, and an InvalidTypeError otherwise.  (Signaling NaNs, whose
    comparison raises, are left out.) *)
Lemma enumeration_by_equality :
  forall E desc recon n p l ignored partial ph ser anc v,
    plain p -> v <> VNone -> dated v -> snan_val v = false ->
    Forall (fun x => snan_val x = false /\ dated x) l ->
    (forall g, ignored = Some g -> Forall (fun x => snan_val x = false /\ dated x) g) ->
    let out := process_gen E desc recon n (Fld p (KEnumeration l ignored)) partial ph ser anc v in
    let path := path_of p (KEnumeration l ignored) anc in
    let among g := exists x, In x g /\ equal (e_local E) x v in
    ((exists g, ignored = Some g /\ among g) -> out = if p_nonnull p then fails path $"nonnull" else Ok VNone)
    /\ ((forall g, ignored = Some g -> ~ among g) ->
        (among l -> out = Ok v) /\ (~ among l -> out = invalid_type path)).
Proof.
  intros E desc recon n p l ignored partial ph ser anc v Hp Hv Hd Hs Hl Hg out path among.
  assert (Hsn : forall g, Forall (fun x => snan_val x = false /\ dated x) g -> Forall (fun x => snan_val x = false) g)
    by (intros g; apply Forall_impl; tauto).
  assert (Ham : forall g, Forall (fun x => snan_val x = false /\ dated x) g ->
            among g <-> exists x, In x g /\ veq (e_local E) x v = true).
  { intros g Hf. rewrite Forall_forall in Hf. unfold among.
    split; intros [x [Hx He]]; exists x; (split; [exact Hx|]); apply equality_exact; auto; apply (Hf x Hx). }
  destruct (enumeration_exact E desc recon n p l ignored partial ph ser anc v Hp Hv Hs (Hsn l Hl)
              (fun g Hi => Hsn g (Hg g Hi))) as [H1 H2].
  split.
  - intros [g [Hi Hm]]. apply Ham in Hm; [|apply Hg, Hi]. destruct Hm as [x Hx]. apply H1. exists g, x. auto.
  - intros Hno. destruct H2 as [H2 H3].
    { intros [g [x [Hi Hx]]]. apply (Hno g Hi). apply Ham; [apply Hg, Hi|]. exists x. exact Hx. }
    split; intros Hm; [apply H2, Ham|apply H3; intros Hm'; apply Hm, Ham]; auto.
Qed.

(** @example
Example C91_enumeration_example :
  let f := Fld p0 (KEnumeration [VInt 2; VTime (Tod 1 2 3 4)] (Some [VStr $"x"])) in
  let among v := exists x, In x [VInt 2; VTime (Tod 1 2 3 4)] /\ equal (e_local env0) x v in
  among (VDec (DFin false 20 (-1))) /\ run0 f Inbound true (VDec (DFin false 20 (-1))) = Ok (VDec (DFin false 20 (-1)))
  /\ run0 f Inbound true (VTime (Tod 1 0 3 4)) = invalid_type [$"(enumeration)"].
Proof.
  cbv zeta. split; [|split; reflexivity]. exists (VInt 2). split; [left; reflexivity|].
  apply (equal_number _ _ _ (inject_Z 2) (dec_Q (DFin false 20 (-1)))); [constructor|constructor|reflexivity].
Qed.
@end *)

(** @prop C91 Constants: a candidate whose unserialized and preprocessed form is not equal to the constant
    is refused with an InvalidTypeError; with one that is equal the field behaves as without constant. *)
Lemma constant_by_equality :
  forall E desc recon n p k c partial ph ser anc v w0 w,
    basic k = true -> (forall l g, k <> KEnumeration l g) ->
    v <> VNone -> c <> VNone -> snan_val w = false -> snan_val c = false -> dated w -> dated c ->
    (if ser && phase_eqb ph Inbound
     then unserialize_value E recon k (path_of p k anc) v = Ok w0 else w0 = v) ->
    preprocess E p k w0 = Ok w ->
    let out c := process_gen E desc recon n (Fld (with_constant p c) k) partial ph ser anc v in
    (~ equal (e_local E) w c -> out c = invalid_type (path_of p k anc))
    /\ (equal (e_local E) w c -> out c = out VNone).
Proof.
  intros E desc recon n p k c partial ph ser anc v w0 w Hb He Hv Hc Hw Hc' Dw Dc Hun Hpre out.
  destruct (constant_exact E desc recon n p k c partial ph ser anc v w0 w Hb He Hv Hc Hw Hc' Hun Hpre) as [H1 H2].
  split; intros H.
  - apply H1. destruct (veq (e_local E) w c) eqn:Hq; [|reflexivity]. exfalso. apply H, equality_exact; auto.
  - apply H2, equality_exact; auto.
Qed.

(** @example
Example C91_constant_example :
  let f := Fld (p_const (VDateTime (DateTime (Date 2020 1 1) (Tod 12 0 0 0) (Some TzUTC)))) (KDateTime None None true) in
  run0 f Inbound true (VStr $"2020-01-01T12:00:00Z") = Ok (VDateTime (DateTime (Date 2020 1 1) (Tod 12 0 0 0) (Some TzUTC)))
  /\ run0 f Inbound true (VStr $"2020-01-01T12:00:01Z") = invalid_type [$"(datetime)"].
Proof. split; vm_compute; reflexivity. Qed.
@end *)

(** @prop C91 Unique sequences: no two items of what is returned are equal; if every item is accepted, with
    hashable results, and a later one is equal to an earlier one, the sequence is refused with the token
    [duplicate]. *)
Lemma unique_by_equality :
  forall E desc recon n p item mn mx partial ph ser anc l rs,
    p_preprocessor p = None -> defined E item -> Forall dated rs ->
    let path := path_of p (KSequence item mn mx true) anc in
    let run i x := process_gen E desc recon n item false ph ser (path ++ [index_seg i]) x in
    let out := process_gen E desc recon n (Fld p (KSequence item mn mx true)) partial ph ser anc (VList l) in
    (out = Ok (VList rs) ->
     forall i j x y, (i < j)%nat -> nth_error rs i = Some x -> nth_error rs j = Some y -> ~ equal (e_local E) y x)
    /\ (at_least Z.le mn (Z.of_nat (length l)) -> at_most Z.le mx (Z.of_nat (length l)) ->
        pointwise (fun i x y => run i x = Ok y) l rs -> Forall (fun y => hashable y = true) rs ->
        (exists i j x y, (i < j)%nat /\ nth_error rs i = Some x /\ nth_error rs j = Some y /\ equal (e_local E) y x) ->
        out = fails path $"duplicate").
Proof.
  intros E desc recon n p item mn mx partial ph ser anc l rs Hp Hd Hrs path run out.
  rewrite Forall_forall in Hrs.
  assert (Hn : forall i x, nth_error rs i = Some x -> dated x) by (intros i x H; apply Hrs; eapply nth_error_In, H).
  split.
  - intros Ho i j x y Hij Hx Hy He.
    destruct (sequence_unique_result E desc recon n p item mn mx partial ph ser anc l (VList rs) Hp Hd Ho) as [rs' [[= <-] H]].
    specialize (H i j x y Hij Hx Hy). apply equality_exact in He; [|eauto..]. congruence.
  - intros Hmn Hmx Hpw Hh [i [j [x [y [Hij [Hx [Hy He]]]]]]].
    apply (sequence_unique_rejects E desc recon n p item mn mx partial ph ser anc l rs Hp Hd Hmn Hmx Hpw); [exact Hh|].
    exists i, j, x, y. repeat split; auto. apply equality_exact; eauto.
Qed.

(** @example
Example C91_unique_example :
  let f := Fld p0 (KSequence (Fld p0 KField) None None true) in
  run0 f Inbound true (VList [VTime (Tod 1 2 3 4); VTime (Tod 1 0 3 4)]) = Ok (VList [VTime (Tod 1 2 3 4); VTime (Tod 1 0 3 4)])
  /\ run0 f Inbound true (VList [VBool true; VDec (DFin false 10 (-1))]) = fails [$"(sequence)"] $"duplicate".
Proof. split; vm_compute; reflexivity. Qed.
@end *)
