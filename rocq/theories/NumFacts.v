(** * Facts about numerals (proofs only; no model content). *)
From Coq Require Import ZifyBool ZifyN ZifyNat.
From Verif Require Import PyBaseFacts NumText.
Open Scope N_scope.
Ltac Zify.zify_post_hook ::= Z.div_mod_to_equations.

Definition dig (d : N) : Prop := d < 10.

Lemma digits_val_app a b : digits_val (a ++ b) = fold_left (fun x d => 10 * x + d) b (digits_val a).
Proof. unfold digits_val. apply fold_left_app. Qed.

Lemma digits_val_snoc a d : digits_val (a ++ [d]) = 10 * digits_val a + d.
Proof. rewrite digits_val_app. reflexivity. Qed.

Lemma digits_val_zeros n b : digits_val (repeat 0 n ++ b) = digits_val b.
Proof.
  induction n as [|n IH]; [reflexivity|]. cbn [repeat app]. unfold digits_val in *. cbn [fold_left].
  exact IH.
Qed.

Lemma digits_aux_spec f n acc :
  n < 2 ^ N.of_nat f ->
  exists ds, digits_aux (S f) n acc = ds ++ acc /\ digits_val ds = n /\ Forall dig ds /\ ds <> []
             /\ (forall d r, ds = d :: r -> d = 0 -> r = []).
Proof.
  revert n acc. induction f as [|f IH]; intros n acc Hn.
  - assert (n = 0) by (cbn in Hn; lia). subst n. exists [0]. cbn.
    repeat split; auto; try discriminate. repeat constructor. intros d r [= <- <-] _. reflexivity.
  - cbn [digits_aux]. destruct (N.eqb_spec (n / 10) 0) as [Hz|Hz].
    + exists [n mod 10]. cbn [app]. split; [reflexivity|].
      split; [unfold digits_val; cbn [fold_left]; lia|].
      split; [constructor; [unfold dig; lia|constructor]|].
      split; [discriminate|]. intros d r [= _ <-] _. reflexivity.
    + assert (Hn' : n / 10 < 2 ^ N.of_nat f).
      { rewrite Nat2N.inj_succ, N.pow_succ_r' in Hn. lia. }
      destruct (IH (n / 10) (n mod 10 :: acc) Hn') as [ds [H1 [H2 [H3 [H4 H5]]]]].
      exists (ds ++ [n mod 10]). rewrite <- app_assoc. cbn [app].
      change (digits_aux (S f) (n / 10) (n mod 10 :: acc) = ds ++ n mod 10 :: acc) in H1.
      split; [exact H1|]. split; [rewrite digits_val_snoc, H2; lia|].
      split; [apply Forall_app; split; auto; constructor; [unfold dig; lia|constructor]|].
      split; [destruct ds; discriminate|].
      intros d r Hd H0. destruct ds as [|d' ds]; [contradiction|]. cbn in Hd. injection Hd as -> <-.
      specialize (H5 d ds eq_refl H0). subst ds d.
      unfold digits_val in H2. cbn in H2. lia.
Qed.

Lemma size_nat_bound n : n < 2 ^ N.of_nat (N.size_nat n).
Proof.
  destruct n as [|p]; [reflexivity|]. cbn [N.size_nat].
  induction p as [p IH|p IH|]; cbn [Pos.size_nat]; [| |reflexivity];
    rewrite Nat2N.inj_succ, N.pow_succ_r'; lia.
Qed.

Lemma digits_spec n :
  digits_val (digits n) = n /\ Forall dig (digits n) /\ digits n <> []
  /\ (forall d r, digits n = d :: r -> d = 0 -> r = []).
Proof.
  unfold digits. destruct (digits_aux_spec (N.size_nat n) n [] (size_nat_bound n))
    as [ds [H1 [H2 [H3 [H4 H5]]]]].
  rewrite app_nil_r in H1. rewrite H1. auto.
Qed.

Lemma digits_val_digits n : digits_val (digits n) = n.
Proof. apply digits_spec. Qed.
Lemma digits_dig n : Forall dig (digits n).
Proof. apply digits_spec. Qed.
Lemma digits_nonempty n : digits n <> [].
Proof. apply digits_spec. Qed.

Lemma map_inj {A B} (f : A -> B) :
  (forall x y, f x = f y -> x = y) -> forall l m, map f l = map f m -> l = m.
Proof.
  intros Hf. induction l as [|x l IH]; intros [|y m] H; try discriminate; [reflexivity|].
  cbn [map] in H. injection H as H1 H2. f_equal; auto.
Qed.

Lemma render_inj l m : render l = render m -> l = m.
Proof. apply map_inj. intros x y H. lia. Qed.

Lemma N_text_inj a b : N_text a = N_text b -> a = b.
Proof.
  intros H. apply render_inj in H.
  rewrite <- (digits_val_digits a), <- (digits_val_digits b), H. reflexivity.
Qed.

(** ** Parsing *)

Lemma is_digit_render d : dig d -> is_digit (48 + d) = true.
Proof. unfold dig, is_digit. lia. Qed.

Definition no_digit_first (s : str) : Prop := forall c r, s = c :: r -> is_digit c = false.

Lemma take_digits_none s : no_digit_first s -> take_digits s = ([], s).
Proof. destruct s as [|c s]; cbn; [reflexivity|]. intros H. rewrite (H c s eq_refl). reflexivity. Qed.

Lemma take_digits_render ds s :
  Forall dig ds -> no_digit_first s -> take_digits (render ds ++ s) = (ds, s).
Proof.
  intros Hd Hs. induction Hd as [|d ds Hd' Hds IH]; [apply take_digits_none, Hs|].
  unfold render in *. cbn [map app take_digits]. rewrite is_digit_render by exact Hd'.
  rewrite IH. f_equal. f_equal. lia.
Qed.

Lemma take_digits_render' ds : Forall dig ds -> take_digits (render ds) = (ds, []).
Proof.
  intros H. rewrite <- (app_nil_r (render ds)). apply take_digits_render; auto. intros c r [=].
Qed.

Lemma take_digits_spec s :
  let '(ds, r) := take_digits s in s = render ds ++ r /\ Forall dig ds /\ no_digit_first r.
Proof.
  induction s as [|c s IH]; cbn; [repeat split; auto; intros c r [=]|].
  destruct (is_digit c) eqn:Hc.
  - destruct (take_digits s) as [ds r]. destruct IH as [H1 [H2 H3]].
    unfold is_digit in Hc. repeat split; auto.
    + unfold render in *. cbn [map app]. rewrite <- H1. f_equal. lia.
    + constructor; auto. unfold dig. lia.
  - repeat split; auto. intros c' r' [= <- <-]. exact Hc.
Qed.

Lemma take_sign_digit d s : dig d -> take_sign ((48 + d) :: s) = (false, (48 + d) :: s).
Proof.
  unfold dig. intros H. unfold take_sign.
  destruct (N.eqb_spec (48 + d) 45); [lia|]. destruct (N.eqb_spec (48 + d) 43); [lia|]. reflexivity.
Qed.

Lemma take_sign_render ds s :
  ds <> [] -> Forall dig ds -> take_sign (render ds ++ s) = (false, render ds ++ s).
Proof.
  intros Hn Hd. destruct Hd as [|d ds Hd Hds]; [contradiction|]. apply take_sign_digit, Hd.
Qed.

Lemma ununder_none prev s : ~ In 95 s -> ununder prev s = Some s.
Proof.
  revert prev. induction s as [|c s IH]; intros prev H; [reflexivity|]. cbn [ununder].
  destruct (N.eqb_spec c 95) as [->|Hc]; [exfalso; apply H; left; reflexivity|].
  rewrite IH; [reflexivity|]. intros Hi. apply H. right. exact Hi.
Qed.

Lemma render_In c ds : Forall dig ds -> In c (render ds) -> 48 <= c <= 57.
Proof.
  intros Hd Hc. unfold render in Hc. apply in_map_iff in Hc. destruct Hc as [d [<- Hd']].
  rewrite Forall_forall in Hd. specialize (Hd d Hd'). unfold dig in Hd. lia.
Qed.

Lemma lstrip_app p a s : Forall (fun c => p c = true) a -> lstrip p (a ++ s) = lstrip p s.
Proof. induction 1 as [|c a Hc Ha IH]; cbn; [reflexivity|]. rewrite Hc. exact IH. Qed.

Lemma rstrip_all p b : Forall (fun c => p c = true) b -> rstrip p b = [].
Proof. induction 1 as [|c b Hc Hb IH]; cbn; [reflexivity|]. rewrite IH, Hc. reflexivity. Qed.

Lemma rstrip_app p t b :
  Forall (fun c => p c = true) b -> rstrip p (t ++ b) = rstrip p t.
Proof.
  intros Hb. induction t as [|c t IH]; cbn; [apply rstrip_all, Hb|]. rewrite IH. reflexivity.
Qed.

Lemma strip_app p a t b :
  Forall (fun c => p c = true) a -> Forall (fun c => p c = true) b ->
  (forall c r, t = c :: r -> p c = false) -> (forall c r, t = r ++ [c] -> p c = false) ->
  strip p (a ++ t ++ b) = t.
Proof.
  intros Ha Hb Hhd Htl. unfold strip. rewrite lstrip_app by exact Ha.
  destruct t as [|c t].
  - cbn. replace (lstrip p b) with (@nil N); [reflexivity|].
    symmetry. rewrite <- (app_nil_r b). rewrite lstrip_app by exact Hb. reflexivity.
  - rewrite lstrip_id.
    + rewrite rstrip_app by exact Hb. apply rstrip_id. exact Htl.
    + intros d r [= <- _]. eapply Hhd. reflexivity.
Qed.

Lemma strip_none p t : Forall (fun c => p c = false) t -> strip p t = t.
Proof.
  intros H. rewrite Forall_forall in H. rewrite <- (app_nil_r t) at 1.
  change (t ++ []) with ([] ++ t ++ []). apply strip_app; auto.
  - intros c r ->. apply H. left. reflexivity.
  - intros c r ->. apply H. apply in_or_app. right. left. reflexivity.
Qed.

Lemma ascii_id ud s : Forall (fun c => c < 127) s -> to_ascii_num ud s = s.
Proof.
  induction 1 as [|c s Hc Hs IH]; [reflexivity|]. unfold to_ascii_num in *. cbn [map]. rewrite IH.
  destruct (N.ltb_spec c 127); [reflexivity|lia].
Qed.

Lemma Z_text_sign z :
  Z_text z = (if (z <? 0)%Z then [45] else []) ++ render (digits (Z.abs_N z)).
Proof. destruct z; reflexivity. Qed.

(** ** Finite decimal numbers *)

Lemma parse_finite_render a (fp : option (list N)) (ex : option Z) :
  a <> [] -> Forall dig a -> (forall b, fp = Some b -> Forall dig b) ->
  let b := match fp with Some b => b | None => [] end in
  parse_finite (render a ++ (match fp with Some b => 46 :: render b | None => [] end)
                         ++ (match ex with Some z => 69 :: plus_text z | None => [] end))
  = Some (a ++ b, (match ex with Some z => z | None => 0 end - zlen b)%Z).
Proof.
  intros Ha Hda Hfp b.
  assert (Hdb : Forall dig b).
  { unfold b. destruct fp as [b'|]; [apply Hfp; reflexivity | constructor]. }
  set (tail := match ex with Some z => 69 :: plus_text z | None => [] end).
  assert (Htail : no_digit_first tail).
  { unfold tail. intros c r. destruct ex; [intros [= <- _]; reflexivity | discriminate]. }
  unfold parse_finite.
  assert (H1 : take_digits (render a ++ (match fp with Some b' => 46 :: render b' | None => [] end) ++ tail)
               = (a, (match fp with Some b' => 46 :: render b' | None => [] end) ++ tail)).
  { apply take_digits_render; auto. destruct fp; [intros c r [= <- _]; reflexivity|exact Htail]. }
  rewrite H1. cbv beta iota.
  match goal with
  | |- (let (x, y) := ?m in _) = _ => assert (H2 : m = (b, tail))
  end.
  { unfold b. destruct fp as [b'|].
    - cbn [app]. rewrite N.eqb_refl. apply take_digits_render; auto.
    - cbn [app]. unfold tail. destruct ex as [z|]; reflexivity. }
  rewrite H2. cbv beta iota.
  assert (Hab : a ++ b <> []) by (destruct a; [contradiction|discriminate]).
  destruct (a ++ b) as [|x y] eqn:Hxy; [contradiction|].
  unfold tail. destruct ex as [z|]; [|f_equal].
  change (69 =? 69) with true. cbn [orb].
  assert (H3 : take_sign (plus_text z) = ((z <? 0)%Z, render (digits (Z.abs_N z)))).
  { unfold plus_text. rewrite Z_text_sign. destruct (z <? 0)%Z; reflexivity. }
  rewrite H3, take_digits_render' by apply digits_dig.
  destruct (digits (Z.abs_N z)) as [|d ds] eqn:Hds; [exfalso; revert Hds; apply digits_nonempty|].
  rewrite <- Hds, digits_val_digits. do 2 f_equal. unfold signed.
  destruct (Z.ltb_spec z 0); lia.
Qed.
