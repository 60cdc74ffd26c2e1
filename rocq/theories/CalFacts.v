(** * Calendar arithmetic (proofs only). *)
From Coq Require Import ZifyBool ZifyN ZifyNat.
From Verif Require Import PyBaseFacts NumFacts CalSpec.
Open Scope Z_scope.
Ltac Zify.zify_post_hook ::= Z.div_mod_to_equations.

Lemma mod_divide a b : 0 < b -> (a mod b =? 0) = true <-> (b | a).
Proof. intros H. rewrite Z.eqb_eq. apply Z.mod_divide. lia. Qed.

Lemma is_leap_spec y : is_leap y = true <-> leap_year y.
Proof.
  unfold is_leap, leap_year. rewrite andb_true_iff, orb_true_iff, negb_true_iff, !mod_divide by lia.
  rewrite <- (mod_divide y 100) by lia. destruct (y mod 100 =? 0); intuition congruence.
Qed.

Lemma is_leap_false y : is_leap y = false <-> ~ leap_year y.
Proof. rewrite <- is_leap_spec. destruct (is_leap y); intuition congruence. Qed.

(** A valid month and day, as tested by the model. *)
Definition md_ok (y m d : Z) : Prop := 1 <= m <= 12 /\ 1 <= d <= days_in_month y m.

Lemma months m : 1 <= m <= 12 -> In m [1;2;3;4;5;6;7;8;9;10;11;12].
Proof. cbn. lia. Qed.

Ltac month_cases m Hm :=
  let H := fresh in pose proof (months m Hm) as H; cbn [In] in H;
  repeat (destruct H as [<-|H]); [..|destruct H].

Ltac cbn_cal :=
  cbn [Z.ltb Z.compare Pos.compare Pos.compare_cont andb orb negb Z.eqb Pos.eqb days_before_month_tab b2z] in *.

Lemma month_length_spec y m n : month_length y m n <-> 1 <= m <= 12 /\ n = days_in_month y m.
Proof.
  split.
  - intros H. destruct H as [m H|m H|H|H].
    + cbn in H. split; [lia|]. repeat (destruct H as [<-|H]; [reflexivity|]). destruct H.
    + cbn in H. split; [lia|]. repeat (destruct H as [<-|H]; [reflexivity|]). destruct H.
    + split; [lia|]. unfold days_in_month. cbn. rewrite (proj2 (is_leap_spec y) H). reflexivity.
    + split; [lia|]. unfold days_in_month. cbn. rewrite (proj2 (is_leap_false y) H). reflexivity.
  - intros [Hm ->]. month_cases m Hm; unfold days_in_month; cbn [Z.eqb Pos.eqb orb];
      try (apply ml_long; cbn; lia); try (apply ml_short; cbn; lia).
    destruct (is_leap y) eqn:Hl; [apply ml_leap, is_leap_spec, Hl|apply ml_common, is_leap_false, Hl].
Qed.

Lemma existing_day_spec d :
  existing_day d <-> 1 <= d_year d <= 9999 /\ md_ok (d_year d) (d_month d) (d_day d).
Proof.
  unfold existing_day, md_ok. split.
  - intros [Hy [n [Hn Hd]]]. apply month_length_spec in Hn. destruct Hn as [Hm ->]. auto.
  - intros [Hy [Hm Hd]]. split; [exact Hy|]. exists (days_in_month (d_year d) (d_month d)).
    split; [apply month_length_spec; auto|exact Hd].
Qed.

Lemma mk_date_spec y m d r : mk_date y m d = Some r <-> r = Date y m d /\ existing_day r.
Proof.
  rewrite existing_day_spec. unfold mk_date, md_ok.
  destruct (_ && _) eqn:H; split.
  - intros [= <-]. split; [reflexivity|]. cbn. lia.
  - intros [-> _]. reflexivity.
  - discriminate.
  - intros [-> Hd]. cbn in Hd. exfalso. lia.
Qed.

Lemma mk_tod_spec h m s us r : mk_tod h m s us = Some r <-> r = Tod h m s us /\ existing_time r.
Proof.
  unfold mk_tod, existing_time. destruct (_ && _) eqn:H; split.
  - intros [= <-]. split; [reflexivity|]. cbn. lia.
  - intros [-> _]. reflexivity.
  - discriminate.
  - intros [-> Hd]. cbn in Hd. exfalso. lia.
Qed.

Lemma dim_bounds y m : 28 <= days_in_month y m <= 31.
Proof. unfold days_in_month. destruct (m =? 2); [destruct (is_leap y); lia|]. destruct (_ || _); lia. Qed.

Lemma dbm_next y m : 1 <= m < 12 -> days_before_month y (m + 1) = days_before_month y m + days_in_month y m.
Proof.
  intros Hm. unfold days_before_month, days_in_month.
  assert (H : In m [1;2;3;4;5;6;7;8;9;10;11]) by (cbn; lia). cbn [In] in H.
  repeat (destruct H as [<-|H]); [..|destruct H]; cbn; destruct (is_leap y); reflexivity.
Qed.

Lemma dbm_1 y : days_before_month y 1 = 0.
Proof. reflexivity. Qed.

Lemma dbm_12 y : days_before_month y 12 + 31 = 365 + b2z (is_leap y).
Proof. unfold days_before_month. cbn. destruct (is_leap y); reflexivity. Qed.

Lemma dby_next y : days_before_year (y + 1) = days_before_year y + 365 + b2z (is_leap y).
Proof.
  unfold days_before_year, is_leap. replace (y + 1 - 1) with y by lia. unfold b2z.
  destruct (_ && _) eqn:H; lia.
Qed.

Lemma day_after_ordinal a b : day_after a b -> md_ok (d_year a) (d_month a) (d_day a) -> ordinal b = ordinal a + 1.
Proof.
  intros H [Hm Hd]. unfold ordinal. destruct H as [n Hn Hlt|n Hn Heq Hlt|H1 H2]; cbn [d_year d_month d_day].
  - lia.
  - apply month_length_spec in Hn. destruct Hn as [_ ->]. rewrite dbm_next by lia. lia.
  - rewrite dby_next, dbm_1, H1, H2. pose proof (dbm_12 (d_year a)). lia.
Qed.

Lemma dbm_bounds y m d : md_ok y m d -> 1 <= days_before_month y m + d <= 365 + b2z (is_leap y).
Proof.
  intros [Hm Hd]. unfold days_before_month, days_in_month in *.
  month_cases m Hm; cbn_cal; destruct (is_leap y); cbn_cal; lia.
Qed.

Lemma dbm_mono y m m' d : 1 <= m -> m < m' -> m' <= 12 -> d <= days_in_month y m ->
  days_before_month y m + d <= days_before_month y m'.
Proof.
  intros H1 H2 H3 Hd. unfold days_before_month, days_in_month in *.
  month_cases m (conj H1 (ltac:(lia) : m <= 12)); month_cases m' (conj (ltac:(lia) : 1 <= m') H3);
    cbn_cal; try lia; destruct (is_leap y); cbn_cal; lia.
Qed.

Lemma dby_mono y y' : y < y' -> days_before_year y + 365 + b2z (is_leap y) <= days_before_year y'.
Proof.
  intros H. rewrite <- dby_next. unfold days_before_year. lia.
Qed.

Lemma date_ltb_ordinal a b :
  md_ok (d_year a) (d_month a) (d_day a) -> md_ok (d_year b) (d_month b) (d_day b) ->
  date_ltb a b = true -> ordinal a < ordinal b.
Proof.
  intros Ha Hb H. unfold ordinal. assert (Ha' := dbm_bounds _ _ _ Ha). assert (Hb' := dbm_bounds _ _ _ Hb).
  unfold date_ltb in H. apply orb_true_iff in H. destruct H as [H|H].
  - apply Z.ltb_lt in H. apply dby_mono in H. lia.
  - apply andb_true_iff in H. destruct H as [Hy H]. apply Z.eqb_eq in Hy. rewrite <- Hy in *.
    apply orb_true_iff in H. destruct H as [H|H].
    + apply Z.ltb_lt in H. destruct Ha, Hb. pose proof (dbm_mono (d_year a) (d_month a) (d_month b) (d_day a)).
      lia.
    + apply andb_true_iff in H. destruct H as [Hm H]. apply Z.eqb_eq in Hm. rewrite <- Hm. lia.
Qed.

Lemma date_tri a b : date_ltb a b = true \/ date_ltb b a = true \/ a = b.
Proof.
  destruct a as [y m d], b as [y' m' d']. unfold date_ltb. cbn.
  destruct (Z.lt_trichotomy y y') as [H|[H|H]]; [left; lia| |right; left; lia].
  destruct (Z.lt_trichotomy m m') as [H'|[H'|H']]; [left; lia| |right; left; lia].
  destruct (Z.lt_trichotomy d d') as [H''|[H''|H'']]; [left; lia| |right; left; lia].
  right. right. congruence.
Qed.

Lemma date_ltb_iff a b :
  md_ok (d_year a) (d_month a) (d_day a) -> md_ok (d_year b) (d_month b) (d_day b) ->
  date_ltb a b = true <-> ordinal a < ordinal b.
Proof.
  intros Ha Hb. split; [apply date_ltb_ordinal; assumption|]. intros H.
  destruct (date_tri a b) as [|[H1| ->]]; [assumption| |lia].
  apply date_ltb_ordinal in H1; [lia|assumption..].
Qed.

Lemma ordinal_inj a b :
  md_ok (d_year a) (d_month a) (d_day a) -> md_ok (d_year b) (d_month b) (d_day b) ->
  ordinal a = ordinal b -> a = b.
Proof.
  intros Ha Hb H. destruct (date_tri a b) as [H1|[H1| ->]]; [| |reflexivity];
    apply date_ltb_ordinal in H1; try assumption; lia.
Qed.

Lemma later_ordinal n a b : later n a b -> md_ok (d_year a) (d_month a) (d_day a) ->
  ordinal b = ordinal a + Z.of_nat n /\ md_ok (d_year b) (d_month b) (d_day b).
Proof.
  induction 1 as [a|n a b c H1 H2 IH]; intros Ha; [split; [lia|exact Ha]|].
  assert (Ho := day_after_ordinal _ _ H1 Ha).
  assert (Hb : md_ok (d_year b) (d_month b) (d_day b)).
  { destruct Ha as [Hm Hd]. destruct H1 as [k Hk Hlt|k Hk Heq Hlt|E1 E2]; cbn.
    - apply month_length_spec in Hk. destruct Hk as [_ ->]. split; [lia|]. lia.
    - pose proof (dim_bounds (d_year a) (d_month a + 1)). split; lia.
    - pose proof (dim_bounds (d_year a + 1) 1). split; lia. }
  destruct (IH Hb) as [IH1 IH2]. split; [lia|exact IH2].
Qed.

Lemma later_exists n : forall a, md_ok (d_year a) (d_month a) (d_day a) -> exists b, later n a b.
Proof.
  induction n as [|n IH]; intros a Ha; [exists a; constructor|].
  assert (Hn : exists b, day_after a b).
  { destruct Ha as [Hm Hd].
    destruct (Z.eq_dec (d_day a) (days_in_month (d_year a) (d_month a))) as [He|He].
    - destruct (Z.eq_dec (d_month a) 12) as [H12|H12].
      + eexists. apply da_next_year; [exact H12|]. rewrite He, H12. reflexivity.
      + eexists. eapply da_next_month; [apply month_length_spec; split; [exact Hm|reflexivity]|exact He|lia].
    - eexists. eapply da_same_month; [apply month_length_spec; split; [exact Hm|reflexivity]|lia]. }
  destruct Hn as [b Hb]. assert (Hl : later 1 a b) by (econstructor; [exact Hb|constructor]).
  apply later_ordinal in Hl; [|exact Ha]. destruct (IH b (proj2 Hl)) as [c Hc]. exists c. econstructor; eassumption.
Qed.

Lemma day_le_spec a b : existing_day a -> existing_day b -> day_le a b <-> date_ltb b a = false.
Proof.
  rewrite !existing_day_spec. intros [_ Ha] [_ Hb].
  assert (H : date_ltb b a = false <-> ordinal a <= ordinal b).
  { rewrite <- not_true_iff_false, date_ltb_iff by assumption. lia. }
  rewrite H. split.
  - intros [n Hn]. apply later_ordinal in Hn; [lia|exact Ha].
  - intros Ho. destruct (later_exists (Z.to_nat (ordinal b - ordinal a)) a Ha) as [c Hc].
    exists (Z.to_nat (ordinal b - ordinal a)). assert (Hl := later_ordinal _ _ _ Hc Ha).
    assert (Hbc : b = c) by (apply ordinal_inj; [exact Hb|apply Hl|lia]). rewrite Hbc at 2. exact Hc.
Qed.

(** ** Ordinals and days *)

Fixpoint sweep (f : Z -> bool) (n : nat) (z : Z) : bool :=
  match n with O => true | S m => f z && sweep f m (z + 1) end.

Lemma sweep_spec f n : forall z, sweep f n z = true -> forall x, z <= x < z + Z.of_nat n -> f x = true.
Proof.
  induction n as [|n IH]; intros z H x Hx; [lia|]. cbn in H. apply andb_true_iff in H. destruct H as [H1 H2].
  destruct (Z.eq_dec x z) as [->|Hne]; [exact H1|]. apply (IH _ H2). lia.
Qed.

(** Month and day of the day number [r] (from 0) of a year, as [ord2ymd] finds them. *)
Definition month_day (leap : bool) (r : Z) : Z * Z :=
  let month := (r + 50) / 32 in
  let preceding := days_before_month_tab month + b2z ((2 <? month) && leap) in
  if r <? preceding then
    let month' := month - 1 in
    let dim := (if month' =? 2 then 28
                else if (month' =? 4) || (month' =? 6) || (month' =? 9) || (month' =? 11) then 30
                else 31) + b2z ((month' =? 2) && leap) in
    (month', r - (preceding - dim) + 1)
  else (month, r - preceding + 1).

Definition month_day_ok (leap : bool) (r : Z) : bool :=
  let (m, d) := month_day leap r in
  (days_before_month_tab m + b2z ((2 <? m) && leap) + d =? r + 1) && (1 <=? m) && (m <=? 12) && (1 <=? d)
  && (d <=? (if m =? 2 then (if leap then 29 else 28)
             else if (m =? 4) || (m =? 6) || (m =? 9) || (m =? 11) then 30 else 31)).

Lemma year_sweep : sweep (fun r => month_day_ok true r && month_day_ok false r) (Z.to_nat 365) 0 = true.
Proof. reflexivity. Qed.

Lemma month_day_spec leap r : 0 <= r < 365 -> month_day_ok leap r = true.
Proof.
  intros H. assert (Hs := sweep_spec _ _ _ year_sweep r ltac:(lia)). cbv beta in Hs.
  apply andb_true_iff in Hs. destruct leap; apply Hs.
Qed.

Lemma ord2ymd_spec n : 1 <= n ->
  ordinal (ord2ymd n) = n /\ 1 <= d_year (ord2ymd n)
  /\ md_ok (d_year (ord2ymd n)) (d_month (ord2ymd n)) (d_day (ord2ymd n)).
Proof.
  intros Hn.
  assert (Hd : exists a b c d r, ord2ymd n =
      (let year := a * 400 + 1 + b * 100 + c * 4 + d in
       if (d =? 4) || (b =? 4) then Date (year - 1) 12 31
       else let md := month_day ((d =? 3) && (negb (c =? 24) || (b =? 3))) r in Date year (fst md) (snd md))
     /\ 0 <= a /\ 0 <= b <= 4 /\ 0 <= c <= 24 /\ 0 <= d <= 4 /\ 0 <= r < 365
     /\ n - 1 = a * 146097 + b * 36524 + c * 1461 + d * 365 + r
     /\ (b = 4 -> c = 0 /\ d = 0 /\ r = 0) /\ (d = 4 -> r = 0 /\ c < 24)).
  { set (m := n - 1). set (r400 := m mod 146097). set (r100 := r400 mod 36524). set (r4 := r100 mod 1461).
    exists (m / 146097), (r400 / 36524), (r100 / 1461), (r4 / 365), (r4 mod 365).
    split.
    - unfold ord2ymd, month_day. fold m. fold r400. fold r100. fold r4. cbv zeta.
      destruct (_ || _); [reflexivity|]. destruct (_ <? _); reflexivity.
    - assert (H0 : 0 <= m) by (unfold m; lia). clearbody m.
      assert (H1 : 0 <= r400 < 146097 /\ m = 146097 * (m / 146097) + r400 /\ 0 <= m / 146097) by (unfold r400; lia).
      generalize dependent (m / 146097). intros q1 H1. clearbody r400.
      assert (H2 : 0 <= r100 < 36524 /\ r400 = 36524 * (r400 / 36524) + r100) by (unfold r100; lia).
      generalize dependent (r400 / 36524). intros q2 H2. clearbody r100.
      assert (H3 : 0 <= r4 < 1461 /\ r100 = 1461 * (r100 / 1461) + r4) by (unfold r4; lia).
      generalize dependent (r100 / 1461). intros q3 H3. clearbody r4.
      assert (H4 : 0 <= r4 mod 365 < 365 /\ r4 = 365 * (r4 / 365) + r4 mod 365) by lia.
      generalize dependent (r4 / 365). generalize (r4 mod 365). intros q4 r1 H4. lia. }
  destruct Hd as [a [b [c [d [r [-> [Ha [Hb [Hc [Hd [Hr [Hm [Hb4 Hd4]]]]]]]]]]]]]. cbv zeta.
  destruct ((d =? 4) || (b =? 4)) eqn:H4.
  - cbn [d_year d_month d_day].
    set (y := a * 400 + 1 + b * 100 + c * 4 + d - 1).
    assert (Hl : is_leap y = true).
    { unfold is_leap. assert (Hy : (b = 4 /\ y = 400 * (a + 1)) \/ (y = 4 * (100 * a + 25 * b + c + 1) /\ b < 4 /\ c < 24 /\ d = 4)) by lia.
      destruct Hy as [[_ Hy]|[Hy [Hy1 [Hy2 Hy3]]]]; rewrite !andb_true_iff, orb_true_iff, negb_true_iff.
      - split; [lia|]. right. lia.
      - split; [lia|]. left. apply Z.eqb_neq. clearbody y. subst y.
        replace (4 * (100 * a + 25 * b + c + 1)) with (4 * (c + 1) + (4 * a + b) * 100) by lia.
        rewrite Z.mod_add by lia. rewrite Z.mod_small by lia. lia. }
    unfold ordinal, md_ok, days_before_month, days_in_month. cbn [d_year d_month d_day]. rewrite Hl.
    cbn -[days_before_year Z.add Z.sub Z.le].
    split; [|split; [lia|lia]].
    assert (Hby : days_before_year y = n - 366).
    { unfold days_before_year. destruct (Z.eqb_spec b 4) as [Hb'|Hb'].
      - replace (y - 1) with (400 * a + 399) by lia. lia.
      - assert (d = 4) by lia. assert (c < 24) by lia. replace (y - 1) with (400 * a + 100 * b + 4 * c + 3) by lia.
        replace ((400 * a + 100 * b + 4 * c + 3) / 4) with (100 * a + 25 * b + c) by lia.
        replace ((400 * a + 100 * b + 4 * c + 3) / 100) with (4 * a + b) by lia.
        replace ((400 * a + 100 * b + 4 * c + 3) / 400) with a by lia. lia. }
    rewrite Hby. lia.
  - apply orb_false_iff in H4. destruct H4 as [H4 H4']. apply Z.eqb_neq in H4. apply Z.eqb_neq in H4'.
    set (y := a * 400 + 1 + b * 100 + c * 4 + d).
    assert (Hl : is_leap y = (d =? 3) && (negb (c =? 24) || (b =? 3))).
    { unfold is_leap.
      assert (E4 : (y mod 4 =? 0) = (d =? 3)).
      { replace y with (1 + d + (100 * a + 25 * b + c) * 4) by lia. rewrite Z.mod_add by lia.
        destruct (Z.eqb_spec d 3) as [-> |]; [reflexivity|]. rewrite Z.mod_small by lia. lia. }
      rewrite E4. destruct (Z.eqb_spec d 3) as [Hd3|]; [|reflexivity]. cbn [andb].
      assert (E100 : (y mod 100 =? 0) = (c =? 24)).
      { replace y with (4 * (c + 1) + (4 * a + b) * 100) by lia. rewrite Z.mod_add by lia.
        destruct (Z.eqb_spec c 24) as [-> |]; [reflexivity|]. rewrite Z.mod_small by lia. lia. }
      rewrite E100. destruct (Z.eqb_spec c 24) as [Hc24|]; [|reflexivity]. cbn [negb orb].
      replace y with (100 * (b + 1) + a * 400) by lia. rewrite Z.mod_add by lia.
      destruct (Z.eqb_spec b 3) as [-> |]; [reflexivity|]. rewrite Z.mod_small by lia. lia. }
    assert (Hby : days_before_year y = n - 1 - r).
    { unfold days_before_year. replace (y - 1) with (400 * a + 100 * b + 4 * c + d) by lia.
      replace ((400 * a + 100 * b + 4 * c + d) / 4) with (100 * a + 25 * b + c) by lia.
      replace ((400 * a + 100 * b + 4 * c + d) / 100) with (4 * a + b) by lia.
      replace ((400 * a + 100 * b + 4 * c + d) / 400) with a by lia. lia. }
    rewrite <- Hl.
    assert (Hmd := month_day_spec (is_leap y) r Hr). unfold month_day_ok in Hmd.
    destruct (month_day (is_leap y) r) as [m day]. cbn [fst snd d_year d_month d_day].
    unfold ordinal, md_ok, days_before_month, days_in_month. cbn [d_year d_month d_day].
    rewrite Hby. repeat rewrite andb_true_iff in Hmd. destruct Hmd as [[[[M1 M2] M3] M4] M5].
    apply Z.eqb_eq in M1. apply Z.leb_le in M2. apply Z.leb_le in M3. apply Z.leb_le in M4. apply Z.leb_le in M5.
    split; [|split; [lia|split; [lia|split; [exact M4|exact M5]]]].
    set (t := days_before_month_tab m + _) in *. clearbody t. lia.
Qed.

Lemma ord2ymd_ordinal d : 1 <= ordinal d -> md_ok (d_year d) (d_month d) (d_day d) -> ord2ymd (ordinal d) = d.
Proof.
  intros Ho Hd. destruct (ord2ymd_spec _ Ho) as [H1 [H2 H3]]. apply ordinal_inj; assumption.
Qed.

Lemma ordinal_range d : existing_day d -> 1 <= ordinal d <= max_ordinal.
Proof.
  rewrite existing_day_spec. intros [Hy Hd]. pose proof (dbm_bounds _ _ _ Hd) as Hb. unfold ordinal.
  assert (H1 : 0 <= days_before_year (d_year d)) by (unfold days_before_year; lia).
  assert (H2 : days_before_year (d_year d) + 365 + b2z (is_leap (d_year d)) <= max_ordinal).
  { rewrite <- dby_next. unfold days_before_year, max_ordinal. lia. }
  lia.
Qed.

Lemma ord2ymd_existing n : 1 <= n <= max_ordinal -> existing_day (ord2ymd n).
Proof.
  intros Hn. destruct (ord2ymd_spec n ltac:(lia)) as [H1 [H2 H3]]. apply existing_day_spec. split; [|exact H3].
  split; [exact H2|]. destruct (Z.le_gt_cases (d_year (ord2ymd n)) 9999) as [|H]; [assumption|]. exfalso.
  generalize dependent (ord2ymd n). intros d H1 H2 H3 H. pose proof (dbm_bounds _ _ _ H3). unfold ordinal in H1.
  assert (max_ordinal <= days_before_year (d_year d)) by (unfold days_before_year, max_ordinal; lia). lia.
Qed.

(** ** Seconds *)


Lemma tod_secs_range t : existing_time t -> 0 <= tod_secs t < 86400.
Proof. unfold existing_time, tod_secs. lia. Qed.

Definition max_secs : Z := max_ordinal * 86400.

Lemma dt_secs_range dt : existing dt -> 0 <= dt_secs dt < max_secs.
Proof.
  intros [H1 H2]. apply ordinal_range in H1. apply tod_secs_range in H2. unfold dt_secs, max_secs. lia.
Qed.

Lemma of_secs_spec s us z dt : 0 <= us <= 999999 -> of_secs s us z = Some dt ->
  0 <= s < max_secs /\ existing dt /\ dt_secs dt = s /\ t_us (dt_time dt) = us /\ dt_tz dt = z.
Proof.
  intros Hus H. unfold of_secs in H. destruct (_ && _) eqn:Hr; [|discriminate]. injection H as <-.
  assert (Hd : 1 <= s / 86400 + 1 <= max_ordinal) by lia. unfold max_secs.
  split; [unfold max_ordinal in *; lia|]. unfold existing, dt_secs. cbn [dt_date dt_time dt_tz t_us].
  split; [split; [apply ord2ymd_existing, Hd|unfold existing_time; cbn; lia]|].
  split; [|auto]. rewrite (proj1 (ord2ymd_spec _ (proj1 Hd))). unfold tod_secs. cbn. lia.
Qed.

Lemma of_secs_some s us z : 0 <= s < max_secs -> exists dt, of_secs s us z = Some dt.
Proof.
  intros H. unfold of_secs, max_secs, max_ordinal in *. destruct (_ && _) eqn:Hr; [eauto|]. exfalso. lia.
Qed.

Lemma of_secs_dt_secs dt : existing dt -> of_secs (dt_secs dt) (t_us (dt_time dt)) (dt_tz dt) = Some dt.
Proof.
  intros Hdt. assert (Hr := dt_secs_range _ Hdt). destruct Hdt as [Hd Ht].
  unfold of_secs. assert (Hs := tod_secs_range _ Ht).
  assert (Hq : dt_secs dt / 86400 + 1 = ordinal (dt_date dt)) by (unfold dt_secs; lia).
  assert (Hm : dt_secs dt mod 86400 = tod_secs (dt_time dt)) by (unfold dt_secs; lia).
  rewrite Hq, Hm. assert (Ho := ordinal_range _ Hd).
  destruct (_ && _) eqn:Hc; [|lia]. f_equal. destruct dt as [d [h m s us] z]. cbn in *. f_equal.
  - apply existing_day_spec in Hd. apply ord2ymd_ordinal; [lia|apply Hd].
  - unfold existing_time, tod_secs in *. cbn in *. f_equal; lia.
Qed.
