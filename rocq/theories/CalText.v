(** * Texts of dates and times (proofs only). *)
From Coq Require Import ZifyBool ZifyN ZifyNat.
From Verif Require Import PyBaseFacts NumFacts CalSpec CalFacts.
Open Scope Z_scope.
Ltac Zify.zify_post_hook ::= Z.div_mod_to_equations.

(** ** Writing *)

Lemma d2_digits z : 0 <= z <= 99 -> d2 z = map (fun d => 48 + d)%N [Z.to_N (z / 10); Z.to_N (z mod 10)].
Proof. intros H. unfold d2. cbn [map]. f_equal; [lia|]. f_equal. lia. Qed.

Lemma d2_numeral z : 0 <= z <= 99 -> numeral 2 (d2 z) z.
Proof.
  intros H. exists [Z.to_N (z / 10); Z.to_N (z mod 10)]. split; [apply d2_digits, H|]. split; [reflexivity|].
  split; [repeat constructor; lia|]. cbn [place_value length]. change (10 ^ Z.of_nat 1) with 10. change (10 ^ Z.of_nat 0) with 1. lia.
Qed.

Lemma numeral_2 s z : numeral 2 s z -> s = d2 z /\ 0 <= z <= 99.
Proof.
  intros [ds [-> [Hl [Hf Hv]]]]. destruct ds as [|a [|b [|]]]; try discriminate Hl.
  inversion Hf as [|? ? Ha Hf']; subst. inversion Hf' as [|? ? Hb _]; subst.
  cbn [place_value length]. change (10 ^ Z.of_nat 1) with 10. change (10 ^ Z.of_nat 0) with 1.
  split; [|lia]. unfold d2. cbn [map]. f_equal; [lia|]. f_equal. lia.
Qed.

Definition d4 (y : Z) : str := d2 (y / 100) ++ d2 (y mod 100).

Lemma d4_numeral y : 0 <= y <= 9999 -> numeral 4 (d4 y) y.
Proof.
  intros H. exists [Z.to_N (y / 100 / 10); Z.to_N (y / 100 mod 10); Z.to_N (y mod 100 / 10); Z.to_N (y mod 100 mod 10)].
  split; [unfold d4; rewrite !d2_digits by lia; reflexivity|]. split; [reflexivity|].
  split; [repeat constructor; lia|]. cbn [place_value length].
  change (10 ^ Z.of_nat 3) with 1000. change (10 ^ Z.of_nat 2) with 100. change (10 ^ Z.of_nat 1) with 10.
  change (10 ^ Z.of_nat 0) with 1. lia.
Qed.

Lemma numeral_4 s y : numeral 4 s y -> s = d4 y /\ 0 <= y <= 9999.
Proof.
  intros [ds [-> [Hl [Hf Hv]]]]. destruct ds as [|a [|b [|c [|d [|]]]]]; try discriminate Hl.
  inversion Hf as [|? ? Ha Hf1]; subst. inversion Hf1 as [|? ? Hb Hf2]; subst.
  inversion Hf2 as [|? ? Hc Hf3]; subst. inversion Hf3 as [|? ? Hd _]; subst.
  cbn [place_value length].
  change (10 ^ Z.of_nat 3) with 1000. change (10 ^ Z.of_nat 2) with 100. change (10 ^ Z.of_nat 1) with 10.
  change (10 ^ Z.of_nat 0) with 1.
  split; [|lia]. unfold d4, d2. cbn [map app]. f_equal; [lia|]. f_equal; [lia|]. f_equal; [lia|]. f_equal. lia.
Qed.

Lemma digits_4 n : (1000 <= n <= 9999)%N ->
  digits n = [n / 10 / 10 / 10; n / 10 / 10 mod 10; n / 10 mod 10; n mod 10]%N.
Proof.
  intros H. assert (Hs := size_nat_bound n).
  assert (Hk : exists k, N.size_nat n = S (S (S k))).
  { destruct (N.size_nat n) as [|[|[|k]]]; [cbn in Hs; lia..|eauto]. }
  destruct Hk as [k Hk]. unfold digits. rewrite Hk. cbn [digits_aux].
  destruct (N.eqb_spec (n / 10) 0); [lia|]. destruct (N.eqb_spec (n / 10 / 10) 0); [lia|].
  destruct (N.eqb_spec (n / 10 / 10 / 10) 0); [lia|].
  destruct (N.eqb_spec (n / 10 / 10 / 10 / 10) 0); [|lia].
  f_equal. lia.
Qed.

Lemma year_text_d4 pad y : 1 <= y <= 9999 -> pad = true \/ 1000 <= y -> year_text pad y = d4 y.
Proof.
  intros Hy Hp. unfold year_text. destruct pad; [reflexivity|]. destruct Hp as [|Hp]; [discriminate|].
  rewrite Z_text_sign. destruct (Z.ltb_spec y 0); [lia|]. rewrite digits_4 by lia.
  unfold render, d4, d2. cbn [map app].
  f_equal; [lia|]. f_equal; [lia|]. f_equal; [lia|]. f_equal. lia.
Qed.

Lemma date_text_iso pad d : existing_day d -> pad = true \/ 1000 <= d_year d -> iso_date (date_text pad d) d.
Proof.
  intros Hd Hp. apply existing_day_spec in Hd. destruct Hd as [Hy [Hm Hd]].
  pose proof (dim_bounds (d_year d) (d_month d)).
  exists (d4 (d_year d)), (d2 (d_month d)), (d2 (d_day d)). unfold date_text. rewrite year_text_d4 by assumption.
  split; [reflexivity|]. split; [apply d4_numeral; lia|]. split; apply d2_numeral; lia.
Qed.

Lemma iso_date_text s d : iso_date s d -> s = date_text true d.
Proof.
  intros [y [m [dd [-> [H1 [H2 H3]]]]]]. apply numeral_4 in H1. apply numeral_2 in H2, H3.
  destruct H1 as [-> _], H2 as [-> _], H3 as [-> _]. reflexivity.
Qed.

Lemma tod_text_iso t : existing_time t -> iso_time (tod_text t) t.
Proof.
  intros [Hh [Hm [Hs _]]]. exists (d2 (t_hour t)), (d2 (t_min t)), (d2 (t_sec t)).
  split; [reflexivity|]. split; [apply d2_numeral; lia|]. split; apply d2_numeral; lia.
Qed.

Lemma iso_time_text s t : iso_time s t -> s = tod_text t.
Proof.
  intros [h [m [x [-> [H1 [H2 H3]]]]]]. apply numeral_2 in H1, H2, H3.
  destruct H1 as [-> _], H2 as [-> _], H3 as [-> _]. reflexivity.
Qed.

(** ** Reading what was written *)

(** The first success of the format on [s] reads [zs] and leaves [r]. *)
Definition first (f : list fitem) (s : str) (zs : list Z) (r : str) : Prop :=
  exists tl, match_fmt f s = (zs, r) :: tl.

Lemma first_nil s : first [] s [] s.
Proof. exists []. reflexivity. Qed.

Lemma first_lit c f s zs r : first f s zs r -> first (FLit c :: f) (c :: s) zs r.
Proof. intros [tl H]. exists tl. cbn [match_fmt match_lit]. rewrite N.eqb_refl. exact H. Qed.

Lemma first_num alts f t s z zs r :
  (exists tl, match_num alts (t ++ s) = (z, s) :: tl) -> first f s zs r ->
  first (FNum alts :: f) (t ++ s) (z :: zs) r.
Proof.
  intros [tl1 H1] [tl2 H2]. unfold first. cbn [match_fmt]. rewrite H1. cbn [flat_map fst snd]. rewrite H2.
  cbn [map app fst snd]. eexists. reflexivity.
Qed.

Lemma range_In z n : 0 <= z < Z.of_nat n -> In z (map Z.of_nat (seq 0 n)).
Proof. intros H. apply in_map_iff. exists (Z.to_nat z). split; [lia|]. apply in_seq. lia. Qed.

Ltac enum z n H :=
  let Hin := fresh in pose proof (range_In z n H) as Hin; cbn in Hin;
  repeat (destruct Hin as [<-|Hin]; [try lia; try (eexists; reflexivity)|]); [..|destruct Hin].

Lemma read_month z s : 1 <= z <= 12 ->
  exists tl, match_num [[crng 1 1; crng 0 2]; [crng 0 0; crng 1 9]; [crng 1 9]] (d2 z ++ s) = (z, s) :: tl.
Proof. intros H. assert (H' : 0 <= z < Z.of_nat 13) by lia. enum z 13%nat H'. Qed.
Lemma read_day ud z s : 1 <= z <= 31 ->
  exists tl, match_num [[crng 3 3; crng 0 1]; [crng 1 2; cany ud]; [crng 0 0; crng 1 9]; [crng 1 9];
                          [cblank; crng 1 9]] (d2 z ++ s) = (z, s) :: tl.
Proof. intros H. assert (H' : 0 <= z < Z.of_nat 32) by lia. enum z 32%nat H'. Qed.
Lemma read_hour ud z s : 0 <= z <= 23 ->
  exists tl, match_num [[crng 2 2; crng 0 3]; [crng 0 1; cany ud]; [cany ud]] (d2 z ++ s) = (z, s) :: tl.
Proof. intros H. assert (H' : 0 <= z < Z.of_nat 24) by lia. enum z 24%nat H'. Qed.
Lemma read_minute ud z s : 0 <= z <= 59 ->
  exists tl, match_num [[crng 0 5; cany ud]; [cany ud]] (d2 z ++ s) = (z, s) :: tl.
Proof. intros H. assert (H' : 0 <= z < Z.of_nat 60) by lia. enum z 60%nat H'. Qed.
Lemma read_second ud z s : 0 <= z <= 59 ->
  exists tl, match_num [[crng 6 6; crng 0 1]; [crng 0 5; cany ud]; [cany ud]] (d2 z ++ s) = (z, s) :: tl.
Proof. intros H. assert (H' : 0 <= z < Z.of_nat 60) by lia. enum z 60%nat H'. Qed.

Lemma cany_digit ud z : 0 <= z <= 9 -> cany ud (Z.to_N (48 + z)) = Some (Z.to_N z).
Proof.
  intros H. unfold cany, is_digit. replace (_ && _)%bool with true by lia. f_equal. lia.
Qed.

Lemma read_year ud y s : 1 <= y <= 9999 ->
  exists tl, match_num [[cany ud; cany ud; cany ud; cany ud]] (d4 y ++ s) = (y, s) :: tl.
Proof.
  intros H. exists []. unfold match_num. cbn [flat_map]. unfold d4, d2. cbn [app match_seq].
  rewrite !cany_digit by lia. cbn [app]. f_equal. f_equal. unfold digits_val. cbn [fold_left]. lia.
Qed.

Lemma first_date ud pad d f s zs r : existing_day d -> pad = true \/ 1000 <= d_year d ->
  first f s zs r ->
  first (date_fmt ud ++ f) (date_text pad d ++ s) (d_year d :: d_month d :: d_day d :: zs) r.
Proof.
  intros Hd Hp Hf. apply existing_day_spec in Hd. destruct Hd as [Hy [Hm Hd]].
  pose proof (dim_bounds (d_year d) (d_month d)).
  unfold date_text. rewrite year_text_d4 by assumption. rewrite <- !app_assoc.
  apply first_num; [apply read_year, Hy|]. apply first_lit. cbn [app]. apply first_num; [apply read_month, Hm|].
  apply first_lit. cbn [app]. apply first_num; [apply read_day; lia|exact Hf].
Qed.

Lemma first_tod ud t f s zs r : existing_time t -> first f s zs r ->
  first (tod_fmt ud ++ f) (tod_text t ++ s) (t_hour t :: t_min t :: t_sec t :: zs) r.
Proof.
  intros [Hh [Hm [Hs _]]] Hf. unfold tod_text. rewrite <- !app_assoc.
  apply first_num; [apply read_hour, Hh|]. apply first_lit. cbn [app]. apply first_num; [apply read_minute, Hm|].
  apply first_lit. cbn [app]. apply first_num; [apply read_second, Hs|exact Hf].
Qed.

Lemma first_strptime f s zs : first f s zs [] -> strptime f s = Some zs.
Proof. intros [tl H]. unfold strptime. rewrite H. reflexivity. Qed.

Lemma parse_date_text ud pad d : existing_day d -> pad = true \/ 1000 <= d_year d ->
  parse_date ud (date_text pad d) = Some d.
Proof.
  intros Hd Hp. unfold parse_date.
  assert (H := first_date ud pad d [] [] [] [] Hd Hp (first_nil [])). rewrite !app_nil_r in H.
  rewrite (first_strptime _ _ _ H). apply mk_date_spec. split; [destruct d; reflexivity|exact Hd].
Qed.

Lemma parse_tod_text ud t : existing_time t -> parse_tod ud (tod_text t) = Some (Tod (t_hour t) (t_min t) (t_sec t) 0).
Proof.
  intros Ht. unfold parse_tod. assert (H := first_tod ud t [] [] [] [] Ht (first_nil [])). rewrite !app_nil_r in H.
  rewrite (first_strptime _ _ _ H). apply mk_tod_spec. split; [reflexivity|]. destruct Ht as [? [? [? ?]]].
  repeat split; cbn; lia.
Qed.

Lemma parse_datetime_text ud pad dt : existing dt -> pad = true \/ 1000 <= d_year (dt_date dt) ->
  parse_datetime ud (datetime_text pad dt)
  = Some (DateTime (dt_date dt) (Tod (t_hour (dt_time dt)) (t_min (dt_time dt)) (t_sec (dt_time dt)) 0) (Some TzUTC)).
Proof.
  intros [Hd Ht] Hp. unfold parse_datetime.
  assert (H0 : first [FLit 90] $"Z" [] []) by (exists []; reflexivity).
  assert (H1 := first_tod ud _ _ _ _ _ Ht H0). apply (first_lit 84) in H1.
  assert (H := first_date ud pad _ _ _ _ _ Hd Hp H1).
  change (84%N :: tod_text (dt_time dt) ++ $"Z") with ($"T" ++ tod_text (dt_time dt) ++ $"Z") in H.
  change (FLit 84 :: tod_fmt ud ++ [FLit 90]) with ([FLit 84] ++ tod_fmt ud ++ [FLit 90]) in H.
  apply first_strptime in H. unfold datetime_text, datetime_fmt. rewrite H.
  assert (Hmd : mk_date (d_year (dt_date dt)) (d_month (dt_date dt)) (d_day (dt_date dt)) = Some (dt_date dt)).
  { apply mk_date_spec. split; [destruct (dt_date dt); reflexivity|exact Hd]. }
  rewrite Hmd. rewrite (proj2 (mk_tod_spec (t_hour (dt_time dt)) (t_min (dt_time dt)) (t_sec (dt_time dt)) 0 (Tod (t_hour (dt_time dt)) (t_min (dt_time dt)) (t_sec (dt_time dt)) 0))); [reflexivity|]. split; [reflexivity|].
  destruct Ht as [? [? [? ?]]]. repeat split; cbn; lia.
Qed.

(** ** Reading anything *)

Lemma crng_digit E a b c d : (b <= 9)%N -> crng a b c = Some d -> digit_of E c d.
Proof. unfold crng. intros Hb. destruct (_ && _)%bool eqn:H; [|discriminate]. intros [= <-]. left. lia. Qed.

Lemma cany_digit_of E c d : cany (e_udigit E) c = Some d -> digit_of E c d.
Proof.
  unfold cany, is_digit. destruct (_ && _)%bool eqn:H; [intros [= <-]; left; lia|].
  destruct (N.ltb_spec c 128); [discriminate|]. intros Hd. right. auto.
Qed.

(** All the character classes of an alternative are digit classes. *)
Definition digit_class (E : env) (k : cclass) : Prop := forall c d, k c = Some d -> digit_of E c d.

Lemma match_seq_digits E alt : forall s ds r, Forall (digit_class E) alt ->
  match_seq alt s = Some (ds, r) ->
  exists t, s = t ++ r /\ Forall2 (digit_of E) t ds /\ length ds = length alt.
Proof.
  induction alt as [|k alt IH]; intros s ds r Ha H; cbn in H.
  - injection H as <- <-. exists []. split; [reflexivity|]. split; [constructor|reflexivity].
  - inversion Ha as [|? ? Hk Ha']; subst. destruct s as [|c s]; [discriminate|].
    destruct (k c) as [d|] eqn:Hkc; [|discriminate]. destruct (match_seq alt s) as [[ds' r']|] eqn:Hm; [|discriminate].
    injection H as <- <-. destruct (IH _ _ _ Ha' Hm) as [t [-> [H1 H2]]].
    exists (c :: t). split; [reflexivity|]. split; [constructor; auto|cbn; lia].
Qed.

Lemma digits_val_place ds : Z.of_N (digits_val ds) = place_value ds.
Proof.
  assert (H : forall ds a, Z.of_N (fold_left (fun a d => 10 * a + d)%N ds a)
            = Z.of_N a * 10 ^ Z.of_nat (length ds) + place_value ds).
  { clear ds. induction ds as [|d ds IH]; intros a; cbn [fold_left place_value length]; [cbn; lia|].
    rewrite IH. rewrite Nat2Z.inj_succ, Z.pow_succ_r by lia. lia. }
  unfold digits_val. rewrite H. lia.
Qed.

Lemma match_num_digits E alts a b s z r :
  Forall (fun alt => Forall (digit_class E) alt /\ (a <= length alt <= b)%nat) alts ->
  In (z, r) (match_num alts s) ->
  exists t, s = t ++ r /\ loose_numeral E a b t z.
Proof.
  intros Ha H. unfold match_num in H. apply in_flat_map in H. destruct H as [alt [Hin H]].
  rewrite Forall_forall in Ha. destruct (Ha _ Hin) as [Hd Hl].
  destruct (match_seq alt s) as [[ds r']|] eqn:Hm; [|destruct H]. destruct H as [H|[]]. injection H as <- <-.
  destruct (match_seq_digits E _ _ _ _ Hd Hm) as [t [-> [H1 H2]]].
  exists t. split; [reflexivity|]. exists ds. split; [exact H1|]. split; [lia|]. symmetry. apply digits_val_place.
Qed.

Lemma match_lit_spec c s r : match_lit c s = Some r -> exists x, s = x :: r /\ lower_ascii x = lower_ascii c.
Proof.
  unfold match_lit. destruct s as [|x s]; [discriminate|]. destruct (N.eqb_spec (lower_ascii x) (lower_ascii c)) as [He|]; [|discriminate].
  intros [= ->]. eauto.
Qed.

Lemma strptime_In f s zs : strptime f s = Some zs -> In (zs, []) (match_fmt f s).
Proof.
  unfold strptime. destruct (match_fmt f s) as [|[l [|]] tl]; try discriminate. intros [= ->]. left. reflexivity.
Qed.

Lemma fmt_num alts f s zs r : In (zs, r) (match_fmt (FNum alts :: f) s) ->
  exists z zs' r', zs = z :: zs' /\ In (z, r') (match_num alts s) /\ In (zs', r) (match_fmt f r').
Proof.
  cbn [match_fmt]. intros H. apply in_flat_map in H. destruct H as [[z r'] [H1 H2]]. apply in_map_iff in H2.
  destruct H2 as [[zs' r2] [[= <- <-] H2]]. exists z, zs', r'. auto.
Qed.

Lemma fmt_lit c f s zs r : In (zs, r) (match_fmt (FLit c :: f) s) ->
  exists x s', s = x :: s' /\ lower_ascii x = lower_ascii c /\ In (zs, r) (match_fmt f s').
Proof.
  cbn [match_fmt]. destruct (match_lit c s) as [s'|] eqn:Hl; [|intros []]. intros H.
  apply match_lit_spec in Hl. destruct Hl as [x [-> Hx]]. exists x, s'. auto.
Qed.

Lemma lower_ascii_same x c : (c < 65)%N -> lower_ascii x = lower_ascii c -> x = c.
Proof. unfold lower_ascii. intros Hc. destruct (_ && _)%bool eqn:H1; destruct (_ && _)%bool eqn:H2 in |- *; lia. Qed.

Ltac digit_cls E :=
  let H := fresh in intros ? ? H;
  first [exact (cany_digit_of E _ _ H) | (apply (crng_digit E) in H; [exact H|lia])].
Ltac classes E :=
  repeat (constructor; [split; [repeat (constructor; [digit_cls E|]); constructor|cbn; lia]|]); constructor.

Lemma day_num E s z r :
  In (z, r) (match_num [[crng 3 3; crng 0 1]; [crng 1 2; cany (e_udigit E)]; [crng 0 0; crng 1 9]; [crng 1 9];
                          [cblank; crng 1 9]] s) ->
  exists b t, s = b ++ t ++ r /\ loose_numeral E 1 2 t z /\ (b = [] \/ b = $" " /\ length t = 1%nat).
Proof.
  set (l := [[crng 3 3; crng 0 1]; [crng 1 2; cany (e_udigit E)]; [crng 0 0; crng 1 9]; [crng 1 9]]).
  intros H. change (In (z, r) (match_num (l ++ [[cblank; crng 1 9]]) s)) in H.
  unfold match_num in H. rewrite flat_map_app in H.
  apply in_app_or in H. destruct H as [H|H].
  - apply (match_num_digits E _ 1 2) in H; [|unfold l; classes E].
    destruct H as [t [-> Ht]]. exists [], t. auto.
  - cbn [flat_map] in H. rewrite app_nil_r in H.
    destruct (match_seq [cblank; crng 1 9] s) as [[ds r']|] eqn:Hm; [|destruct H]. destruct H as [H|[]]. injection H as <- <-.
    cbn in Hm. destruct s as [|c s]; [discriminate|]. unfold cblank in Hm. destruct (N.eqb_spec c 32) as [->|]; [|discriminate].
    destruct s as [|c s]; [discriminate|]. destruct (crng 1 9 c) as [d|] eqn:Hc; [|discriminate]. injection Hm as <- <-.
    exists $" ", [c]. split; [reflexivity|]. split; [|auto]. exists [d]. split; [constructor; [eapply crng_digit; [|exact Hc]; lia|constructor]|].
    split; [cbn; lia|]. rewrite digits_val_place. cbn [place_value]. lia.
Qed.

Lemma date_fmt_sound E f s zs r : In (zs, r) (match_fmt (date_fmt (e_udigit E) ++ f) s) ->
  exists y m d zs' t r', zs = y :: m :: d :: zs' /\ s = t ++ r' /\ denotes_day E t (Date y m d)
                         /\ In (zs', r) (match_fmt f r').
Proof.
  intros H. cbn [date_fmt app] in H. unfold fY, fm, fd in H.
  apply fmt_num in H. destruct H as [y [zs1 [r1 [-> [Hy H]]]]].
  apply fmt_lit in H. destruct H as [x1 [r2 [-> [Hx1 H]]]].
  apply fmt_num in H. destruct H as [m [zs2 [r3 [-> [Hm H]]]]].
  apply fmt_lit in H. destruct H as [x2 [r4 [-> [Hx2 H]]]].
  apply fmt_num in H. destruct H as [d [zs3 [r5 [-> [Hd H]]]]].
  apply lower_ascii_same in Hx1, Hx2; try lia. subst x1 x2.
  apply (match_num_digits E _ 4 4) in Hy; [|classes E].
  apply (match_num_digits E _ 1 2) in Hm; [|classes E].
  apply day_num in Hd. destruct Hy as [ty [-> Hy]], Hm as [tm [-> Hm]], Hd as [b [td [-> [Hd Hb]]]].
  exists y, m, d, zs3, (ty ++ $"-" ++ tm ++ $"-" ++ b ++ td), r5. split; [reflexivity|].
  split; [rewrite <- !app_assoc; reflexivity|]. split; [|exact H].
  exists ty, tm, b, td. auto.
Qed.

Lemma tod_fmt_sound E f s zs r : In (zs, r) (match_fmt (tod_fmt (e_udigit E) ++ f) s) ->
  exists h m x zs' t r', zs = h :: m :: x :: zs' /\ s = t ++ r' /\ denotes_time E t (Tod h m x 0)
                         /\ In (zs', r) (match_fmt f r').
Proof.
  intros H. cbn [tod_fmt app] in H. unfold fH, fM, fS in H.
  apply fmt_num in H. destruct H as [y [zs1 [r1 [-> [Hy H]]]]].
  apply fmt_lit in H. destruct H as [x1 [r2 [-> [Hx1 H]]]].
  apply fmt_num in H. destruct H as [m [zs2 [r3 [-> [Hm H]]]]].
  apply fmt_lit in H. destruct H as [x2 [r4 [-> [Hx2 H]]]].
  apply fmt_num in H. destruct H as [d [zs3 [r5 [-> [Hd H]]]]].
  apply lower_ascii_same in Hx1, Hx2; try lia. subst x1 x2.
  apply (match_num_digits E _ 1 2) in Hy; [|classes E].
  apply (match_num_digits E _ 1 2) in Hm; [|classes E].
  apply (match_num_digits E _ 1 2) in Hd; [|classes E].
  destruct Hy as [ty [-> Hy]], Hm as [tm [-> Hm]], Hd as [td [-> Hd]].
  exists y, m, d, zs3, (ty ++ $":" ++ tm ++ $":" ++ td), r5. split; [reflexivity|].
  split; [rewrite <- !app_assoc; reflexivity|]. split; [|exact H].
  exists ty, tm, td. auto.
Qed.

Lemma parse_date_sound E s d : parse_date (e_udigit E) s = Some d -> existing_day d /\ denotes_day E s d.
Proof.
  unfold parse_date. destruct (strptime _ s) as [zs|] eqn:Hs; [|discriminate]. intros H.
  apply strptime_In in Hs. rewrite <- (app_nil_r (date_fmt _)) in Hs. apply date_fmt_sound in Hs.
  destruct Hs as [y [m [dd [zs' [t [r' [-> [-> [Hd [Hin|[]]]]]]]]]]]. injection Hin as <- ->.
  apply mk_date_spec in H. destruct H as [-> He]. rewrite app_nil_r. auto.
Qed.

Lemma parse_tod_sound E s t : parse_tod (e_udigit E) s = Some t -> existing_time t /\ denotes_time E s t.
Proof.
  unfold parse_tod. destruct (strptime _ s) as [zs|] eqn:Hs; [|discriminate]. intros H.
  apply strptime_In in Hs. rewrite <- (app_nil_r (tod_fmt _)) in Hs. apply tod_fmt_sound in Hs.
  destruct Hs as [y [m [dd [zs' [t' [r' [-> [-> [Hd [Hin|[]]]]]]]]]]]. injection Hin as <- ->.
  apply mk_tod_spec in H. destruct H as [-> He]. rewrite app_nil_r. auto.
Qed.

Lemma lower_letter x c : (65 <= c <= 90)%N -> lower_ascii x = lower_ascii c -> x = c \/ x = (c + 32)%N.
Proof. unfold lower_ascii. intros Hc. destruct (_ && _)%bool eqn:H1; destruct (_ && _)%bool eqn:H2 in |- *; lia. Qed.

Lemma parse_datetime_sound E s dt : parse_datetime (e_udigit E) s = Some dt ->
  existing dt /\ dt_tz dt = Some TzUTC
  /\ exists a sep b z, s = a ++ [sep] ++ b ++ [z] /\ denotes_day E a (dt_date dt) /\ denotes_time E b (dt_time dt)
                       /\ In sep $"Tt" /\ In z $"Zz".
Proof.
  unfold parse_datetime. destruct (strptime _ s) as [zs|] eqn:Hs; [|discriminate]. intros H.
  apply strptime_In in Hs. unfold datetime_fmt in Hs. apply date_fmt_sound in Hs.
  destruct Hs as [y [m [dd [zs' [t [r' [-> [-> [Hd Hs]]]]]]]]].
  apply fmt_lit in Hs. destruct Hs as [x1 [r2 [-> [Hx1 Hs]]]]. fold app in Hs.
  apply (tod_fmt_sound E [FLit 90]) in Hs. destruct Hs as [h [mi [ss [zs2 [t2 [r3 [-> [-> [Ht Hs]]]]]]]]].
  apply fmt_lit in Hs. destruct Hs as [x2 [r4 [-> [Hx2 [Hs|[]]]]]]. injection Hs as <- ->.
  destruct (mk_date y m dd) as [d1|] eqn:H1; [|discriminate]. destruct (mk_tod h mi ss 0) as [t1|] eqn:H2; [|discriminate].
  injection H as <-. apply mk_date_spec in H1. apply mk_tod_spec in H2. destruct H1 as [-> H1], H2 as [-> H2].
  split; [split; assumption|]. split; [reflexivity|]. exists t, x1, t2, x2. cbn [dt_date dt_time].
  split; [reflexivity|]. split; [exact Hd|]. split; [exact Ht|].
  apply lower_letter in Hx1, Hx2; try lia. cbn. split; [destruct Hx1 as [->| ->]|destruct Hx2 as [->| ->]]; auto.
Qed.
