(** * Underscores in numbers (C75). *)
(* @imports Spec Demo UnderSpec *)
From Coq Require Import ZifyBool ZifyN ZifyNat.
From Verif Require Import PyBaseFacts Spec Demo ProcessFacts ScalarProofs InProofs NumFacts UnderSpec.
Open Scope N_scope.

(** Underscores that stand between two characters of some kind. *)
Definition between (dg : N -> Prop) (s : str) : Prop :=
  forall a b, s = a ++ 95 :: b -> exists a' c d b', a = a' ++ [c] /\ b = d :: b' /\ dg c /\ dg d.

Lemma ungrouped_app a b : ungrouped (a ++ b) = ungrouped a ++ ungrouped b.
Proof. induction a as [|c a IH]; [reflexivity|]. cbn. rewrite IH. destruct (c =? 95); reflexivity. Qed.
Lemma ungrouped_none s : ~ In 95 s -> ungrouped s = s.
Proof.
  induction s as [|c s IH]; intros H; [reflexivity|]. cbn. destruct (N.eqb_spec c 95) as [->|Hc]; [exfalso; apply H; left; reflexivity|].
  f_equal. apply IH. intros Hx. apply H. right. exact Hx.
Qed.
Lemma ungrouped_free s : ~ In 95 (ungrouped s).
Proof.
  induction s as [|c s IH]; [intros []|]. cbn. destruct (N.eqb_spec c 95) as [->|Hc]; [exact IH|]. intros [H|H]; [congruence|exact (IH H)].
Qed.
Lemma free_between dg s : ~ In 95 s -> between dg s.
Proof. intros H a b ->. exfalso. apply H. apply in_elt. Qed.

(** The text between the spaces. *)
Lemma strip_parts p s :
  exists pre suf, s = pre ++ strip p s ++ suf /\ Forall (fun c => p c = true) pre /\ Forall (fun c => p c = true) suf
    /\ (forall c r, strip p s = c :: r -> p c = false) /\ (forall c r, strip p s = r ++ [c] -> p c = false).
Proof.
  destruct (lstrip_spec p s) as [pre [H1 [H2 H3]]]. destruct (rstrip_spec p (lstrip p s)) as [suf [H4 [H5 H6]]].
  exists pre, suf. unfold strip. split; [rewrite H1 at 1; rewrite H4 at 1; reflexivity|].
  split; [apply Forall_forall; rewrite forallb_forall in H2; exact H2|]. split; [apply Forall_forall; rewrite forallb_forall in H5; exact H5|].
  split; [|exact H6]. intros c r Hc. destruct (rstrip_head _ _ _ _ Hc) as [r' Hr]. eapply H3, Hr.
Qed.

Lemma around {A} (x : A) pre m suf a b : ~ In x pre -> ~ In x suf -> pre ++ m ++ suf = a ++ x :: b ->
  exists m1 m2, m = m1 ++ x :: m2 /\ a = pre ++ m1 /\ b = m2 ++ suf.
Proof.
  revert a. induction pre as [|y pre IH]; intros a Hp Hs H.
  - cbn [app] in H |- *. revert a H. induction m as [|y m IHm]; intros a H.
    + cbn [app] in H. exfalso. apply Hs. rewrite H. apply in_elt.
    + destruct a as [|z a]; cbn [app] in H.
      * injection H as -> H. exists [], m. auto.
      * injection H as -> H. destruct (IHm a H) as [m1 [m2 [-> [-> ->]]]]. exists (z :: m1), m2. auto.
  - destruct a as [|z a]; cbn [app] in H.
    + injection H as -> H. exfalso. apply Hp. left. reflexivity.
    + injection H as -> H. destruct (IH a (fun X => Hp (or_intror X)) Hs H) as [m1 [m2 [-> [-> ->]]]]. exists m1, m2. auto.
Qed.

Section Spaces.
Context (dg : N -> Prop) (p : N -> bool) (Hdg : forall c, dg c -> p c = false) (H95 : p 95 = false).

Lemma spaces_free l : Forall (fun c => p c = true) l -> ~ In 95 l.
Proof. rewrite Forall_forall. intros H Hx. apply H in Hx. congruence. Qed.

Lemma between_inner pre m suf :
  Forall (fun c => p c = true) pre -> Forall (fun c => p c = true) suf -> between dg (pre ++ m ++ suf) -> between dg m.
Proof.
  intros Hp Hs H a b ->. destruct (H (pre ++ a) (b ++ suf)) as [a' [c [d [b' [Ha [Hb [Hc Hd]]]]]]].
  { rewrite <- !app_assoc. reflexivity. }
  rewrite Forall_forall in Hp, Hs.
  assert (Ha2 : exists a2, a = a2 ++ [c]).
  { destruct a as [|x a _] using rev_ind.
    - exfalso. rewrite app_nil_r in Ha. assert (Hx : In c pre) by (rewrite Ha; apply in_elt). apply Hp in Hx. apply Hdg in Hc. congruence.
    - rewrite app_assoc in Ha. apply app_inj_tail in Ha. destruct Ha as [_ ->]. eauto. }
  destruct Ha2 as [a2 ->]. destruct b as [|y b].
  - exfalso. cbn [app] in Hb. assert (Hx : In d suf) by (rewrite Hb; left; reflexivity). apply Hs in Hx. apply Hdg in Hd. congruence.
  - cbn [app] in Hb. injection Hb as -> _. exists a2, c, d, b. auto.
Qed.

Lemma between_outer pre m suf :
  Forall (fun c => p c = true) pre -> Forall (fun c => p c = true) suf -> between dg m -> between dg (pre ++ m ++ suf).
Proof.
  intros Hp Hs H a b Hab. destruct (around 95 pre m suf a b) as [m1 [m2 [Hm [-> ->]]]]; [apply spaces_free, Hp|apply spaces_free, Hs|exact Hab|].
  destruct (H m1 m2 Hm) as [a' [c [d [b' [-> [-> [Hc Hd]]]]]]]. exists (pre ++ a'), c, d, (b' ++ suf). rewrite app_assoc. auto.
Qed.

Lemma strip_ungrouped s : between dg s -> strip p (ungrouped s) = ungrouped (strip p s).
Proof.
  intros H. destruct (strip_parts p s) as [pre [suf [Hs [Hp [Hq [Hh Hl]]]]]].
  assert (Hm : between dg (strip p s)) by (rewrite Hs in H; exact (between_inner pre _ suf Hp Hq H)).
  rewrite Hs at 1. set (m := strip p s) in *. clearbody m.
  rewrite !ungrouped_app, (ungrouped_none pre), (ungrouped_none suf) by (apply spaces_free; assumption).
  assert (Hone : forall c r, ungrouped m = c :: r -> p c = false).
  { destruct m as [|x m]; [discriminate|]. cbn. destruct (N.eqb_spec x 95) as [->|Hx].
    - destruct (Hm [] m eq_refl) as [a' [? [? [? [Ha _]]]]]. destruct a'; discriminate Ha.
    - intros c r [= <- _]. eapply Hh. reflexivity. }
  assert (Htwo : forall c r, ungrouped m = r ++ [c] -> p c = false).
  { destruct m as [|x m _] using rev_ind; [intros c r Hx; destruct r; discriminate Hx|]. rewrite ungrouped_app. cbn.
    destruct (N.eqb_spec x 95) as [->|Hx].
    - destruct (Hm m [] eq_refl) as [? [? [? [? [_ [Hb _]]]]]]. discriminate Hb.
    - intros c r Hc. apply app_inj_tail in Hc. destruct Hc as [_ <-]. eapply Hl. reflexivity. }
  apply strip_app; assumption.
Qed.
End Spaces.

(** ** Reading *)

Definition ascii_digit (c : N) : Prop := is_digit c = true.

Lemma ununder_ok s : forall prev,
  (forall a b, s = a ++ 95 :: b -> (a = [] /\ prev = true \/ exists a' c, a = a' ++ [c] /\ is_digit c = true)
                                   /\ exists d b', b = d :: b' /\ is_digit d = true) ->
  ununder prev s = Some (ungrouped s).
Proof.
  induction s as [|c s IH]; intros prev H; [reflexivity|]. cbn [ununder ungrouped].
  destruct (N.eqb_spec c 95) as [->|Hc].
  - destruct (H [] s eq_refl) as [[[_ ->]|[a' [? [Ha _]]]] [d [b' [-> Hd]]]]; [|destruct a'; discriminate Ha].
    rewrite Hd. apply IH. intros a b Hab. destruct (H (95 :: a) b) as [[[Hx _]|[a' [x [Ha Hx]]]] Hb]; [cbn; rewrite Hab; reflexivity|discriminate|].
    split; [|exact Hb]. right. destruct a' as [|y a'].
    + injection Ha as <- ->. discriminate Hx.
    + injection Ha as _ ->. eauto.
  - rewrite (IH (is_digit c)); [reflexivity|]. intros a b Hab. destruct (H (c :: a) b) as [[[Hx _]|[a' [x [Ha Hx]]]] Hb]; [cbn; rewrite Hab; reflexivity|discriminate|].
    split; [|exact Hb]. destruct a' as [|y a'].
    + injection Ha as -> ->. left. auto.
    + injection Ha as _ ->. right. eauto.
Qed.

Lemma ununder_inv s : forall prev r, ununder prev s = Some r ->
  forall a b, s = a ++ 95 :: b -> (a = [] /\ prev = true \/ exists a' c, a = a' ++ [c] /\ is_digit c = true)
                                   /\ exists d b', b = d :: b' /\ is_digit d = true.
Proof.
  induction s as [|c s IH]; intros prev r H a b Hab; [destruct a; discriminate|]. cbn [ununder] in H.
  destruct a as [|x a]; cbn [app] in Hab; injection Hab as Hx Hab.
  - subst c s. rewrite N.eqb_refl in H. destruct prev; [|discriminate]. destruct b as [|d b]; [discriminate|].
    destruct (is_digit d) eqn:Hd; [|discriminate]. split; [left; auto|eauto].
  - subst x. destruct (N.eqb_spec c 95) as [->|Hc].
    + destruct prev; [|discriminate]. destruct s as [|d s]; [discriminate|]. destruct (is_digit d) eqn:Hd; [|discriminate].
      destruct (IH false r H a b Hab) as [[[-> Hf]|[a' [y [-> Hy]]]] Hb]; [discriminate|]. split; [|exact Hb]. right. exists (95 :: a'), y. auto.
    + destruct (ununder (is_digit c) s) as [r'|] eqn:Hu; [|discriminate].
      destruct (IH _ r' Hu a b Hab) as [[[-> Hf]|[a' [y [-> Hy]]]] Hb]; split; try exact Hb; right.
      * exists [], c. auto.
      * exists (c :: a'), y. auto.
Qed.

Lemma ununder_between s : between ascii_digit s -> ununder false s = Some (ungrouped s).
Proof.
  intros H. apply ununder_ok. intros a b Hab. destruct (H a b Hab) as [a' [c [d [b' [-> [-> [Hc Hd]]]]]]].
  split; [right; eauto|eauto].
Qed.
Lemma between_ununder s r : ununder false s = Some r -> between ascii_digit s.
Proof.
  intros H a b Hab. destruct (ununder_inv s false r H a b Hab) as [[[_ Hf]|[a' [c [-> Hc]]]] [d [b' [-> Hd]]]]; [discriminate|].
  exists a', c, d, b'. auto.
Qed.

Lemma sign_parts m : exists sg, m = sg ++ snd (take_sign m) /\ (sg = [] \/ exists c, sg = [c] /\ is_digit c = false /\ c <> 95).
Proof.
  destruct m as [|c m]; [exists []; auto|]. cbn [take_sign].
  destruct (N.eqb_spec c 45) as [->|H1]; [exists [45]; split; [reflexivity|right; exists 45; repeat split; discriminate]|].
  destruct (N.eqb_spec c 43) as [->|H2]; [exists [43]; split; [reflexivity|right; exists 43; repeat split; discriminate]|].
  exists []. auto.
Qed.

Lemma sign_between m : between ascii_digit m <-> between ascii_digit (snd (take_sign m)).
Proof.
  destruct (sign_parts m) as [sg [Hm Hsg]]. set (r := snd (take_sign m)) in *. clearbody r. subst m.
  destruct Hsg as [-> |[x [-> [Hx Hn]]]]; [reflexivity|]. cbn [app]. split; intros H a b Hab.
  - destruct (H (x :: a) b) as [a' [c [d [b' [Ha [-> [Hc Hd]]]]]]]; [cbn; rewrite Hab; reflexivity|].
    destruct a' as [|y a']; cbn [app] in Ha; [injection Ha as <- _; unfold ascii_digit in Hc; congruence|].
    injection Ha as _ ->. exists a', c, d, b'. auto.
  - destruct a as [|y a]; cbn [app] in Hab; [congruence|]. injection Hab as <- Hab.
    destruct (H a b Hab) as [a' [c [d [b' [-> [-> Hcd]]]]]]. exists (x :: a'), c, d, b'. auto.
Qed.

Lemma sign_ungrouped m : between ascii_digit m ->
  take_sign (ungrouped m) = (fst (take_sign m), ungrouped (snd (take_sign m))).
Proof.
  intros H. destruct m as [|c m]; [reflexivity|].
  assert (Hc : c <> 95).
  { intros ->. destruct (H [] m eq_refl) as [a' [? [? [? [Ha _]]]]]. destruct a'; discriminate Ha. }
  cbn [ungrouped take_sign]. destruct (N.eqb_spec c 95); [contradiction|]. cbn [take_sign].
  destruct (c =? 45); [reflexivity|]. destruct (c =? 43); [reflexivity|]. cbn [fst snd ungrouped]. destruct (N.eqb_spec c 95); [contradiction|reflexivity].
Qed.

Lemma digit_not_space c : ascii_digit c -> is_ascii_space c = false.
Proof. unfold ascii_digit, is_digit, is_ascii_space. lia. Qed.

Lemma int_ungrouped t : between ascii_digit t -> parse_int_ascii t = parse_int_ascii (ungrouped t).
Proof.
  intros H. unfold parse_int_ascii. rewrite (strip_ungrouped ascii_digit is_ascii_space digit_not_space eq_refl t H).
  assert (Hm : between ascii_digit (strip is_ascii_space t)).
  { destruct (strip_parts is_ascii_space t) as [pre [suf [Hs [Hp [Hq _]]]]]. rewrite Hs in H. exact (between_inner ascii_digit is_ascii_space digit_not_space pre _ suf Hp Hq H). }
  rewrite (sign_ungrouped _ Hm). apply sign_between in Hm. destruct (take_sign (strip is_ascii_space t)) as [neg r]. cbn [fst snd] in *.
  rewrite (ununder_between r Hm), ununder_between, (ungrouped_none (ungrouped r)) by (try apply free_between; apply ungrouped_free). reflexivity.
Qed.

Lemma float_ungrouped t : between ascii_digit t -> parse_float_ascii t = parse_float_ascii (ungrouped t).
Proof.
  intros H. unfold parse_float_ascii. rewrite (strip_ungrouped ascii_digit is_ascii_space digit_not_space eq_refl t H).
  assert (Hm : between ascii_digit (strip is_ascii_space t)).
  { destruct (strip_parts is_ascii_space t) as [pre [suf [Hs [Hp [Hq _]]]]]. rewrite Hs in H. exact (between_inner ascii_digit is_ascii_space digit_not_space pre _ suf Hp Hq H). }
  rewrite (ununder_between _ Hm), ununder_between, (ungrouped_none (ungrouped _)) by (try apply free_between; apply ungrouped_free). reflexivity.
Qed.

Lemma int_reads t z : parse_int_ascii t = Some z -> between ascii_digit t.
Proof.
  unfold parse_int_ascii. intros H. destruct (strip_parts is_ascii_space t) as [pre [suf [Hs [Hp [Hq _]]]]]. rewrite Hs.
  apply (between_outer ascii_digit is_ascii_space); [reflexivity|exact Hp|exact Hq|]. apply sign_between.
  destruct (take_sign (strip is_ascii_space t)) as [neg r]. cbn [snd]. destruct (ununder false r) as [r'|] eqn:Hu; [|discriminate].
  eapply between_ununder, Hu.
Qed.
Lemma float_reads t x : parse_float_ascii t = Some x -> between ascii_digit t.
Proof.
  unfold parse_float_ascii. intros H. destruct (strip_parts is_ascii_space t) as [pre [suf [Hs [Hp [Hq _]]]]]. rewrite Hs.
  apply (between_outer ascii_digit is_ascii_space); [reflexivity|exact Hp|exact Hq|].
  destruct (ununder false (strip is_ascii_space t)) as [r'|] eqn:Hu; [|discriminate]. eapply between_ununder, Hu.
Qed.

(** ** Other scripts *)

Definition ascii_num (E : env) (c : N) : N :=
  if c <? 127 then c else if is_space c then 32 else match e_udigit E c with Some d => 48 + d | None => 63 end.

Lemma ascii_num_95 E c : digit_table E -> (ascii_num E c =? 95) = (c =? 95).
Proof.
  intros Hd. unfold ascii_num. destruct (N.ltb_spec c 127); [reflexivity|]. destruct (is_space c); [lia|].
  destruct (e_udigit E c) as [d|] eqn:He; [apply Hd in He|]; lia.
Qed.
Lemma ascii_num_digit E c : digit_table E -> (ascii_digit (ascii_num E c) <-> numeral E c).
Proof.
  intros Hd. unfold ascii_digit, ascii_num, numeral, is_digit. destruct (N.ltb_spec c 127) as [H|H].
  - split; [intros Hx; left; lia|]. intros [Hx|[Hx _]]; lia.
  - destruct (is_space c) eqn:Hs; [split; [lia|intros [Hx|[_ [Hx _]]]; [lia|discriminate]]|].
    destruct (e_udigit E c) as [d|] eqn:He.
    + apply Hd in He as Hx. split; [intros _; right; eauto|lia].
    + split; [lia|]. intros [Hx|[_ [_ [d Hx]]]]; [lia|discriminate].
Qed.

Lemma num_ungrouped E s : digit_table E -> ungrouped (to_ascii_num (e_udigit E) s) = to_ascii_num (e_udigit E) (ungrouped s).
Proof.
  intros Hd. change (ungrouped (map (ascii_num E) s) = map (ascii_num E) (ungrouped s)).
  induction s as [|c s IH]; [reflexivity|]. cbn [map ungrouped]. rewrite (ascii_num_95 E c Hd). destruct (c =? 95); [exact IH|]. cbn [map]. f_equal. exact IH.
Qed.

Lemma map_split {A B} (f : A -> B) s a y b : map f s = a ++ y :: b ->
  exists a' x b', s = a' ++ x :: b' /\ map f a' = a /\ f x = y /\ map f b' = b.
Proof.
  revert s. induction a as [|z a IH]; intros [|x s] H; try discriminate H; cbn in H; injection H as Hx H.
  - exists [], x, s. auto.
  - destruct (IH s H) as [a' [x' [b' [-> [<- [<- <-]]]]]]. exists (x :: a'), x', b'. cbn. subst z. auto.
Qed.

Lemma num_grouped E s : digit_table E -> (between ascii_digit (to_ascii_num (e_udigit E) s) <-> grouped E s).
Proof.
  intros Hd. change (between ascii_digit (map (ascii_num E) s) <-> grouped E s). split.
  - intros H a b ->. destruct (H (map (ascii_num E) a) (map (ascii_num E) b)) as [a' [c [d [b' [Ha [Hb [Hc Hd']]]]]]].
    { rewrite map_app. reflexivity. }
    apply map_split in Ha. destruct Ha as [a2 [x [r [-> [_ [<- Hr]]]]]]. destruct r; [|discriminate Hr].
    destruct b as [|y b]; [discriminate|]. cbn in Hb. injection Hb as <- _. exists a2, x, y, b.
    split; [reflexivity|]. split; [reflexivity|]. split; eapply ascii_num_digit; eassumption.
  - intros H a b Hab. apply map_split in Hab. destruct Hab as [a' [x [b' [-> [<- [Hx <-]]]]]].
    assert (x = 95) by (assert (Hq := ascii_num_95 E x Hd); rewrite Hx in Hq; lia). subst x.
    destruct (H a' b' eq_refl) as [a2 [c [d [b2 [-> [-> [Hc Hd']]]]]]]. rewrite map_app. cbn [map].
    exists (map (ascii_num E) a2), (ascii_num E c), (ascii_num E d), (map (ascii_num E) b2).
    split; [reflexivity|]. split; [reflexivity|]. split; apply ascii_num_digit; assumption.
Qed.

Lemma filter_ungrouped s : filter (fun c => negb (c =? 95)) s = ungrouped s.
Proof. induction s as [|c s IH]; [reflexivity|]. cbn. rewrite IH. destruct (c =? 95); reflexivity. Qed.

Lemma numeral_not_space E c : numeral E c -> is_space c = false.
Proof.
  intros [H|[_ [H _]]]; [|exact H].
  assert (Hc : c = 48 \/ c = 49 \/ c = 50 \/ c = 51 \/ c = 52 \/ c = 53 \/ c = 54 \/ c = 55 \/ c = 56 \/ c = 57) by lia.
  repeat (destruct Hc as [->|Hc]; [reflexivity|]). subst c. reflexivity.
Qed.

Lemma dec_ungrouped E s : grouped E s -> parse_dec (e_udigit E) s = parse_dec (e_udigit E) (ungrouped s).
Proof.
  intros H. unfold parse_dec. rewrite !filter_ungrouped.
  rewrite (strip_ungrouped (numeral E) is_space (numeral_not_space E) eq_refl s H).
  rewrite (ungrouped_none (ungrouped _)) by apply ungrouped_free. reflexivity.
Qed.

(** @prop C75 Underscores between digits do not count in the texts of integers, floats and decimals: the text is
    processed like the one without them. *)
Lemma underscores_between_digits :
  forall E desc recon n p k partial anc s,
    match k with KInteger _ _ | KFloat _ _ | KDecimal _ _ => True | _ => False end ->
    digit_table E -> grouped E s ->
    process_gen E desc recon n (Fld p k) partial Inbound true anc (VStr s)
    = process_gen E desc recon n (Fld p k) partial Inbound true anc (VStr (ungrouped s)).
Proof.
  intros E desc recon n p k partial anc s Hk Hd Hs.
  assert (Hb : between ascii_digit (to_ascii_num (e_udigit E) s)) by (apply num_grouped; assumption).
  assert (U : unserialize_value E recon k (path_of p k anc) (VStr s) = unserialize_value E recon k (path_of p k anc) (VStr (ungrouped s))).
  { destruct k; try contradiction; cbn [unserialize_value to_int to_float to_dec]; unfold parse_int, parse_float;
      rewrite <- ?(num_ungrouped E s Hd), <- ?(int_ungrouped _ Hb), <- ?(float_ungrouped _ Hb), <- ?(dec_ungrouped E s Hs); reflexivity. }
  assert (B : basic k = true) by (destruct k; try contradiction; reflexivity).
  assert (I : kind_ignored k = None) by (destruct k; try contradiction; reflexivity).
  rewrite !process_basic by exact B. unfold process_scalar. rewrite I, !is_null_some by discriminate.
  cbn [bind andb phase_eqb]. rewrite U. reflexivity.
Qed.

(** @example
Example C75_underscores_example :
  digit_table env0 /\ grouped env0 $"1_0"
  /\ process_gen env0 nodesc norecon 3%nat (Fld p0 (KInteger None None)) false Inbound true [] (VStr $"-1_000_000") = Ok (VInt (-1000000))
  /\ process_gen env0 nodesc norecon 3%nat (Fld p0 (KDecimal None None)) false Inbound true [] (VStr $"1_0.2_5") = Ok (VDec (DFin false 1025 (-2))).
Proof.
  split; [discriminate|]. split; [|split; reflexivity].
  intros [|x [|y [|z a]]] b H; try discriminate H; [|destruct a; discriminate H].
  injection H as <- <-. exists [], 49, 48, []. split; [reflexivity|]. split; [reflexivity|].
  split; left; split; discriminate.
Qed.
@end *)

(** @prop C75 A text with an underscore anywhere else is no integer and no float: it is refused as of an invalid
    type. *)
Lemma underscores_elsewhere_refused :
  forall E desc recon n p k partial anc s,
    match k with KInteger _ _ | KFloat _ _ => True | _ => False end ->
    digit_table E -> ~ grouped E s ->
    process_gen E desc recon n (Fld p k) partial Inbound true anc (VStr s) = invalid_type (path_of p k anc).
Proof.
  intros E desc recon n p k partial anc s Hk Hd Hs.
  assert (Hi : parse_int (e_udigit E) s = None).
  { destruct (parse_int (e_udigit E) s) as [z|] eqn:H; [|reflexivity]. exfalso. apply Hs, num_grouped; [exact Hd|]. eapply int_reads, H. }
  assert (Hf : parse_float (e_udigit E) s = None).
  { destruct (parse_float (e_udigit E) s) as [z|] eqn:H; [|reflexivity]. exfalso. apply Hs, num_grouped; [exact Hd|]. eapply float_reads, H. }
  apply not_converted; [destruct k; try contradiction; reflexivity|destruct k; try contradiction; reflexivity|discriminate|].
  destruct k; try contradiction; cbn [unserialize_value to_int to_float]; rewrite ?Hi, ?Hf; reflexivity.
Qed.

(** @example
(* Decimals are less strict. *)
Example C75_underscores_refused_example :
  ~ grouped env0 $"1__2"
  /\ process_gen env0 nodesc norecon 3%nat (Fld p0 (KInteger None None)) false Inbound true [] (VStr $"1__2")
     = invalid_type (path_of p0 (KInteger None None) [])
  /\ process_gen env0 nodesc norecon 3%nat (Fld p0 (KDecimal None None)) false Inbound true [] (VStr $"1__2") = Ok (VDec (DFin false 12 0)).
Proof.
  split; [|split; reflexivity]. intros H. destruct (H [49%N] [95%N; 50%N] eq_refl) as [a [c [d [b [_ [Hb [_ Hd]]]]]]].
  injection Hb as <- _. destruct Hd as [Hd|[Hd _]]; [destruct Hd as [_ Hd]|]; apply Hd; reflexivity.
Qed.
@end *)
