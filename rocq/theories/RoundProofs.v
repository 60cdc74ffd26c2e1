(** * Numbers become the nearest floats (C96). *)
(* @imports Spec Demo RoundSpec *)
From Coq Require Import ZifyBool ZifyN ZifyNat.
From Verif Require Import PyBaseFacts Spec Demo ProcessFacts ScalarProofs InProofs NumFacts NumProofs RoundSpec.
Open Scope Z_scope.

(** ** Digits *)

Lemma digits_pos p : 2 ^ (Zpos (digits2_pos p) - 1) <= Zpos p < 2 ^ Zpos (digits2_pos p).
Proof.
  induction p as [p IH|p IH|]; cbn [digits2_pos].
  - rewrite Pos2Z.inj_succ. replace (Z.succ (Zpos (digits2_pos p)) - 1) with (Z.succ (Zpos (digits2_pos p) - 1)) by lia.
    rewrite !Z.pow_succ_r by lia. lia.
  - rewrite Pos2Z.inj_succ. replace (Z.succ (Zpos (digits2_pos p)) - 1) with (Z.succ (Zpos (digits2_pos p) - 1)) by lia.
    rewrite !Z.pow_succ_r by lia. lia.
  - cbn. lia.
Qed.
Lemma digits_unique p d : 2 ^ (d - 1) <= Zpos p < 2 ^ d -> 1 <= d -> Zpos (digits2_pos p) = d.
Proof.
  intros [H1 H2] Hd. destruct (digits_pos p) as [H3 H4].
  assert (2 ^ (d - 1) < 2 ^ Zpos (digits2_pos p)) by lia. assert (2 ^ (Zpos (digits2_pos p) - 1) < 2 ^ d) by lia.
  apply Z.pow_lt_mono_r_iff in H; [|lia..]. apply Z.pow_lt_mono_r_iff in H0; [|lia..]. lia.
Qed.
Lemma digits_nonneg m : 0 <= m -> 0 <= Zdigits2 m /\ m < 2 ^ Zdigits2 m /\ (0 < m -> 2 ^ (Zdigits2 m - 1) <= m).
Proof.
  intros H. destruct m as [|p|p]; [cbn; lia| |lia]. cbn [Zdigits2]. destruct (digits_pos p). repeat split; lia.
Qed.

(** ** What a shifted significand stands for *)

Definition stands (A b k : Z) (r : shr_record) : Prop :=
  let m := shr_m r in
  let u := b * 2 ^ k in
  0 <= m /\
  match shr_r r, shr_s r with
  | false, false => A = m * u
  | false, true => m * u < A /\ 2 * A < (2 * m + 1) * u
  | true, false => 2 * A = (2 * m + 1) * u
  | true, true => (2 * m + 1) * u < 2 * A /\ A < (m + 1) * u
  end.

Lemma stands_1 A b k r : 0 < b -> 0 <= k -> stands A b k r -> stands A b (k + 1) (shr_1 r).
Proof.
  intros Hb Hk. destruct r as [m r s]. unfold stands. cbn [shr_m shr_r shr_s]. rewrite Z.pow_add_r by lia. change (2 ^ 1) with 2.
  assert (U : 0 < 2 ^ k) by (apply Z.pow_pos_nonneg; lia). intros [Hm H].
  assert (P : 0 < b * 2 ^ k) by nia. replace (b * (2 ^ k * 2)) with (2 * (b * 2 ^ k)) by ring. set (u := b * 2 ^ k) in *. clearbody u.
  destruct m as [|[p|p|]|p]; [| | | |lia]; cbn [shr_1 shr_m shr_r shr_s].
  - destruct r, s; cbn [orb]; lia.
  - rewrite Pos2Z.inj_xI in H. assert (Q : exists w, w = Zpos p * u) by eauto. destruct Q as [w Q].
    destruct r, s; cbn [orb] in *; repeat rewrite ?Z.mul_add_distr_r, ?Z.mul_1_l, <- ?Z.mul_assoc in *; lia.
  - rewrite Pos2Z.inj_xO in H. destruct r, s; cbn [orb] in *; repeat rewrite ?Z.mul_add_distr_r, ?Z.mul_1_l, <- ?Z.mul_assoc in *; lia.
  - destruct r, s; cbn [orb] in *; lia.
Qed.
Lemma stands_iter A b p : 0 < b -> forall k r, 0 <= k -> stands A b k r -> stands A b (k + Zpos p) (SpecFloat.iter_pos shr_1 p r).
Proof.
  intros Hb. induction p as [p IH|p IH|]; intros k r Hk H; cbn [SpecFloat.iter_pos].
  - replace (k + Zpos p~1) with (k + 1 + Zpos p + Zpos p) by lia. apply IH; [lia|]. apply IH; [lia|]. now apply stands_1.
  - replace (k + Zpos p~0) with (k + Zpos p + Zpos p) by lia. apply IH; [lia|]. now apply IH.
  - now apply stands_1.
Qed.
Lemma stands_bounds A b k r : 0 < b -> 0 <= k -> stands A b k r -> shr_m r * (b * 2 ^ k) <= A < (shr_m r + 1) * (b * 2 ^ k).
Proof.
  intros Hb Hk. destruct r as [m r s]. unfold stands. cbn [shr_m shr_r shr_s].
  assert (U : 0 < 2 ^ k) by (apply Z.pow_pos_nonneg; lia). intros [Hm H]. assert (P : 0 < b * 2 ^ k) by nia.
  set (u := b * 2 ^ k) in *. clearbody u. destruct r, s; rewrite ?Z.mul_add_distr_r, ?Z.mul_1_l, <- ?Z.mul_assoc in *; lia.
Qed.

(** ** Normal significands *)

Definition normal (m e : Z) : Prop := 0 <= m < 2 ^ 53 /\ -1074 <= e /\ (2 ^ 52 <= m \/ e = -1074).

Lemma shr_normal A b mx ex l r e : 0 < b -> 0 <= mx -> -1074 <= ex -> ex <= fexp 53 1024 (Zdigits2 mx + ex) ->
  stands A b (ex + 1074) (shr_record_of_loc mx l) -> shr_fexp 53 1024 mx ex l = (r, e) ->
  stands A b (e + 1074) r /\ normal (shr_m r) e.
Proof.
  intros Hb Hm Hex Hf S. unfold shr_fexp, shr. destruct (digits_nonneg mx Hm) as (D0 & D1 & D2).
  unfold fexp, emin in *. change (3 - 1024 - 53) with (-1074) in *.
  assert (M : shr_m (shr_record_of_loc mx l) = mx) by (destruct l as [|[]]; reflexivity).
  destruct (Z.max (Zdigits2 mx + ex - 53) (-1074) - ex) as [|p|p] eqn:N; intros [= <- <-].
  - split; [exact S|]. rewrite M. unfold normal. split.
    + split; [exact Hm|]. apply Z.lt_le_trans with (1 := D1). apply Z.pow_le_mono_r; lia.
    + split; [exact Hex|]. assert (C : ex = -1074 \/ Zdigits2 mx = 53) by lia. destruct C as [C|C]; [now right|left].
      rewrite C in D2. apply D2. destruct mx; [discriminate|lia|lia].
  - replace (ex + Zpos p + 1074) with (ex + 1074 + Zpos p) by lia.
    assert (S' := stands_iter A b p Hb (ex + 1074) _ ltac:(lia) S). split; [exact S'|].
    assert (Hd : Zdigits2 mx = 53 + Zpos p) by lia. assert (Hpos : 0 < mx) by (destruct mx; [discriminate Hd|lia|lia]).
    assert (B1 := stands_bounds A b (ex + 1074) _ Hb ltac:(lia) S). assert (B2 := stands_bounds A b (ex + 1074 + Zpos p) _ Hb ltac:(lia) S').
    assert (M0 : 0 <= shr_m (SpecFloat.iter_pos shr_1 p (shr_record_of_loc mx l))) by apply S'.
    rewrite M in B1. set (m1 := shr_m (SpecFloat.iter_pos shr_1 p (shr_record_of_loc mx l))) in *. clearbody m1. clear S S' M N Hf.
    rewrite Z.pow_add_r in B2 by lia. assert (U : 0 < 2 ^ (ex + 1074)) by (apply Z.pow_pos_nonneg; lia).
    set (u := 2 ^ (ex + 1074)) in *. clearbody u. specialize (D2 Hpos). rewrite Hd in *.
    replace (53 + Zpos p - 1) with (52 + Zpos p) in D2 by lia. rewrite Z.pow_add_r in D1, D2 by lia.
    assert (V : 0 < 2 ^ Zpos p) by (apply Z.pow_pos_nonneg; lia). set (v := 2 ^ Zpos p) in *. clearbody v.
    set (c52 := 2 ^ 52) in *. set (c53 := 2 ^ 53) in *. assert (C : 0 < c52 /\ 0 < c53) by (subst c52 c53; lia).
    unfold normal. split; [|split; [lia|left]]; fold c52 c53.
    + split; [exact M0|]. assert (H : m1 * (b * (u * v)) < c53 * v * (b * u)).
      { apply Z.le_lt_trans with A; [lia|]. apply Z.lt_le_trans with ((mx + 1) * (b * u)); [lia|]. apply Z.mul_le_mono_nonneg_r; nia. }
      replace (c53 * v * (b * u)) with (c53 * (b * (u * v))) in H by ring. apply Z.mul_lt_mono_pos_r in H; [exact H|]. nia.
    + assert (H : c52 * v * (b * u) < (m1 + 1) * (b * (u * v))).
      { apply Z.le_lt_trans with A; [|lia]. apply Z.le_trans with (mx * (b * u)); [|lia]. apply Z.mul_le_mono_nonneg_r; nia. }
      replace (c52 * v * (b * u)) with (c52 * (b * (u * v))) in H by ring. apply Z.mul_lt_mono_pos_r in H; [lia|]. nia.
  - lia.
Qed.

(** ** The nearest multiple *)

Lemma nearest_multiple A b k r w : 0 < b -> 0 <= k -> stands A b k r ->
  let m := round_nearest_even (shr_m r) (loc_of_shr_record r) in
  let u := b * 2 ^ k in
  Z.abs (A - m * u) <= Z.abs (A - w * u)
  /\ (Z.abs (A - w * u) = Z.abs (A - m * u) -> w = m \/ Z.even m = true).
Proof.
  intros Hb Hk. destruct r as [m r s]. unfold stands. cbn [shr_m shr_r shr_s]. intros [Hm H]. cbv zeta.
  assert (U : 0 < 2 ^ k) by (apply Z.pow_pos_nonneg; lia). assert (P : 0 < b * 2 ^ k) by nia.
  set (u := b * 2 ^ k) in *. clearbody u.
  assert (W : w = m \/ w = m + 1 \/ w <= m - 1 \/ m + 2 <= w) by lia.
  assert (W1 : w <= m - 1 -> w * u <= (m - 1) * u) by (intros; apply Z.mul_le_mono_nonneg_r; lia).
  assert (W2 : m + 2 <= w -> (m + 2) * u <= w * u) by (intros; apply Z.mul_le_mono_nonneg_r; lia).
  assert (EV : Z.even m = false -> Z.even (m + 1) = true) by (intros X; rewrite Z.add_1_r, Z.even_succ, <- Z.negb_even, X; reflexivity).
  rewrite ?Z.mul_add_distr_r, ?Z.mul_sub_distr_r, ?Z.mul_1_l, <- ?Z.mul_assoc in *.
  destruct r, s; cbn [loc_of_shr_record round_nearest_even].
  - rewrite ?Z.mul_add_distr_r, ?Z.mul_1_l. destruct W as [->|[->|[W|W]]]; [| |specialize (W1 W)|specialize (W2 W)];
      rewrite ?Z.mul_add_distr_r, ?Z.mul_1_l; split; try lia.
  - destruct (Z.even m) eqn:Ev; rewrite ?Z.mul_add_distr_r, ?Z.mul_1_l;
      destruct W as [->|[->|[W|W]]]; try specialize (W1 W); try specialize (W2 W); rewrite ?Z.mul_add_distr_r, ?Z.mul_1_l; split; auto; lia.
  - destruct W as [->|[->|[W|W]]]; [| |specialize (W1 W)|specialize (W2 W)]; rewrite ?Z.mul_add_distr_r, ?Z.mul_1_l; split; try lia.
  - destruct W as [->|[->|[W|W]]]; [| |specialize (W1 W)|specialize (W2 W)]; rewrite ?Z.mul_add_distr_r, ?Z.mul_1_l; split; try lia.
Qed.

(** ** The rounding *)

Lemma shr_again m e : 0 <= m <= 2 ^ 53 -> -1074 <= e ->
  shr_fexp 53 1024 m e loc_Exact
  = if m =? 2 ^ 53 then (Build_shr_record (2 ^ 52) false false, e + 1) else (Build_shr_record m false false, e).
Proof.
  intros Hm He. unfold shr_fexp, shr, fexp, emin. change (3 - 1024 - 53) with (-1074). cbn [shr_record_of_loc].
  destruct (Z.eqb_spec m (2 ^ 53)) as [->|N].
  - change (Zdigits2 (2 ^ 53)) with 54. replace (Z.max (54 + e - 53) (-1074) - e) with 1 by lia. reflexivity.
  - destruct (digits_nonneg m ltac:(lia)) as (D0 & D1 & D2). assert (D : Zdigits2 m <= 53).
    { destruct (Z.le_gt_cases m 0) as [Z0|Z0]; [replace m with 0 by lia; cbn; lia|]. specialize (D2 Z0).
      assert (L : 2 ^ (Zdigits2 m - 1) < 2 ^ 53) by lia. apply Z.pow_lt_mono_r_iff in L; lia. }
    destruct (Z.max (Zdigits2 m + e - 53) (-1074) - e) eqn:X; [reflexivity|lia|reflexivity].
Qed.

Lemma scaled u v k : 0 <= k -> k <= v -> u * 2 ^ v = u * 2 ^ (v - k) * 2 ^ k.
Proof. intros H1 H2. rewrite <- Z.mul_assoc, <- Z.pow_add_r by lia. f_equal. f_equal. lia. Qed.

Lemma round_aux neg a b mx ex l : 0 < b -> 0 <= mx -> -1074 <= ex -> ex <= fexp 53 1024 (Zdigits2 mx + ex) ->
  stands (a * 2 ^ 1074) b (ex + 1074) (shr_record_of_loc mx l) -> rounded neg a b (binary_round_aux 53 1024 neg mx ex l).
Proof.
  intros Hb Hm Hex Hf S. unfold binary_round_aux. destruct (shr_fexp 53 1024 mx ex l) as [r e] eqn:F.
  destruct (shr_normal _ b mx ex l r e Hb Hm Hex Hf S F) as [S1 (N1 & N2 & N3)]. clear S F Hf Hm Hex.
  set (m1 := shr_m r) in *. set (m2 := round_nearest_even m1 (loc_of_shr_record r)).
  assert (M2 : m2 = m1 \/ m2 = m1 + 1).
  { subst m2. destruct (loc_of_shr_record r) as [|[]]; cbn [round_nearest_even]; auto. destruct (Z.even m1); auto. }
  rewrite shr_again by lia.
  assert (Hk : 0 <= e + 1074) by lia. assert (NM := fun w => nearest_multiple _ b (e + 1074) r w Hb Hk S1).
  cbv zeta in NM. fold m1 m2 in NM. assert (BD := stands_bounds _ b (e + 1074) r Hb Hk S1). fold m1 in BD.
  assert (U : 0 < 2 ^ (e + 1074)) by (apply Z.pow_pos_nonneg; lia).
  (* any float is not closer *)
  assert (CL : forall m3 e3, 0 <= e3 + 1074 -> steps m3 e3 = steps m2 e -> (Z.even m2 = true -> Z.even m3 = true) -> closest a b m3 e3).
  { intros m3 e3 He3 St Ev m' e' Hm' He'. unfold off. rewrite St. clear St He3. unfold steps.
    replace (b * (m2 * 2 ^ (e + 1074))) with (m2 * (b * 2 ^ (e + 1074))) by ring.
    destruct (Z.le_gt_cases e e') as [L|L].
    - destruct (NM (m' * 2 ^ (e' - e))) as [NM1 NM2]. 
      assert (EQ : b * (m' * 2 ^ (e' + 1074)) = m' * 2 ^ (e' - e) * (b * 2 ^ (e + 1074))).
      { rewrite (scaled m' (e' + 1074) (e + 1074)) by lia. replace (e' + 1074 - (e + 1074)) with (e' - e) by lia. ring. }
      rewrite EQ. split; [exact NM1|]. intros X. destruct (NM2 X) as [Y|Y]; [left|right; auto].
      rewrite (scaled m' (e' + 1074) (e + 1074)) by lia. replace (e' + 1074 - (e + 1074)) with (e' - e) by lia. now rewrite Y.
    - assert (N4 : 2 ^ 52 <= m1) by lia. destruct (NM (2 ^ 52)) as [NM1 _].
      assert (LT : b * (m' * 2 ^ (e' + 1074)) < 2 ^ 52 * (b * 2 ^ (e + 1074))).
      { replace (2 ^ 52 * (b * 2 ^ (e + 1074))) with (b * (2 ^ 52 * 2 ^ (e + 1074))) by ring. apply Z.mul_lt_mono_pos_l; [exact Hb|].
        apply Z.lt_le_trans with (2 ^ 53 * 2 ^ (e' + 1074)).
        - apply Z.mul_lt_mono_pos_r; [apply Z.pow_pos_nonneg; lia|lia].
        - rewrite <- !Z.pow_add_r by lia. apply Z.pow_le_mono_r; lia. }
      assert (GE : 2 ^ 52 * (b * 2 ^ (e + 1074)) <= a * 2 ^ 1074).
      { apply Z.le_trans with (m1 * (b * 2 ^ (e + 1074))); [|lia]. apply Z.mul_le_mono_nonneg_r; [|exact N4]. nia. }
      set (X := a * 2 ^ 1074) in *. set (Y := 2 ^ 52 * (b * 2 ^ (e + 1074))) in *. set (W := b * (m' * 2 ^ (e' + 1074))) in *.
      set (Q := m2 * (b * 2 ^ (e + 1074))) in *. clearbody X Y W Q. lia. }
  (* overflow *)
  assert (TL : too_large a b <-> b * ((2 ^ 54 - 1) * 2 ^ (970 + 1074)) <= a * 2 ^ 1074).
  { unfold too_large. rewrite (Z.pow_add_r 2 970 1074) by lia.
    replace (b * ((2 ^ 54 - 1) * (2 ^ 970 * 2 ^ 1074))) with (b * ((2 ^ 54 - 1) * 2 ^ 970) * 2 ^ 1074) by ring.
    symmetry. rewrite <- Z.mul_le_mono_pos_r; [reflexivity|]. apply Z.pow_pos_nonneg; lia. }
  assert (OV : too_large a b <-> 971 < e \/ e = 971 /\ m2 = 2 ^ 53).
  { rewrite TL. clear TL CL. split.
    - intros H. destruct (Z.le_gt_cases e 970) as [L|L].
      + exfalso. assert (X : (m1 + 1) * (b * 2 ^ (e + 1074)) <= 2 ^ 53 * (b * 2 ^ (970 + 1074))).
        { apply Z.mul_le_mono_nonneg; [lia|lia|nia|]. apply Z.mul_le_mono_nonneg_l; [lia|]. apply Z.pow_le_mono_r; lia. }
        assert (P : 0 < b * 2 ^ (970 + 1074)) by (apply Z.mul_pos_pos; [lia|apply Z.pow_pos_nonneg; lia]).
        replace (b * ((2 ^ 54 - 1) * 2 ^ (970 + 1074))) with ((2 ^ 54 - 1) * (b * 2 ^ (970 + 1074))) in H by ring.
        set (V := b * 2 ^ (970 + 1074)) in *. clearbody V. change (2 ^ 53) with 9007199254740992 in *. change (2 ^ 54 - 1) with 18014398509481983 in *. lia.
      + destruct (Z.eq_dec e 971) as [->|]; [|lia]. right. split; [reflexivity|].
        replace (b * ((2 ^ 54 - 1) * 2 ^ (970 + 1074))) with ((2 ^ 54 - 1) * (b * 2 ^ (970 + 1074))) in H by ring.
        unfold stands in S1. fold m1 in S1. destruct S1 as [_ S1].
        replace (971 + 1074) with (970 + 1074 + 1) in * by lia. rewrite (Z.pow_add_r 2 (970 + 1074) 1) in * by lia. change (2 ^ 1) with 2 in *.
        replace (b * (2 ^ (970 + 1074) * 2)) with (2 * (b * 2 ^ (970 + 1074))) in * by ring.
        assert (P : 0 < b * 2 ^ (970 + 1074)) by (apply Z.mul_pos_pos; [lia|apply Z.pow_pos_nonneg; lia]).
        set (V := b * 2 ^ (970 + 1074)) in *. clearbody V. set (X := a * 2 ^ 1074) in *. clearbody X.
        assert (Z1 : m1 = 2 ^ 53 - 1).
        { assert (X1 : (2 ^ 54 - 1) * V < (2 * m1 + 2) * V) by (replace ((2 * m1 + 2) * V) with ((m1 + 1) * (2 * V)) by ring; lia).
          apply Z.mul_lt_mono_pos_r in X1; lia. }
        subst m2. clearbody m1. subst m1. destruct r as [rm rr rs]; cbn [shr_r shr_s] in S1.
        destruct rr, rs; cbn [loc_of_shr_record round_nearest_even]; change (Z.even (2 ^ 53 - 1)) with false; cbv iota; lia.
    - intros H. replace (b * ((2 ^ 54 - 1) * 2 ^ (970 + 1074))) with ((2 ^ 54 - 1) * (b * 2 ^ (970 + 1074))) by ring. destruct H as [H|[-> H]].
      + apply Z.le_trans with (m1 * (b * 2 ^ (e + 1074))); [|lia]. apply Z.le_trans with (2 ^ 52 * (b * 2 ^ (972 + 1074))).
        * replace (972 + 1074) with (970 + 1074 + 2) by lia. rewrite (Z.pow_add_r 2 (970 + 1074) 2) by lia. change (2 ^ 2) with 4.
          assert (P : 0 < b * 2 ^ (970 + 1074)) by (apply Z.mul_pos_pos; [lia|apply Z.pow_pos_nonneg; lia]).
          replace (b * (2 ^ (970 + 1074) * 4)) with (4 * (b * 2 ^ (970 + 1074))) by ring. set (V := b * 2 ^ (970 + 1074)) in *. clearbody V. lia.
        * apply Z.mul_le_mono_nonneg; [lia|lia| |apply Z.mul_le_mono_nonneg_l; [lia|apply Z.pow_le_mono_r; lia]].
          apply Z.lt_le_incl, Z.mul_pos_pos; [lia|apply Z.pow_pos_nonneg; lia].
      + unfold stands in S1. fold m1 in S1. destruct S1 as [_ S1].
        replace (971 + 1074) with (970 + 1074 + 1) in * by lia. rewrite (Z.pow_add_r 2 (970 + 1074) 1) in * by lia. change (2 ^ 1) with 2 in *.
        replace (b * (2 ^ (970 + 1074) * 2)) with (2 * (b * 2 ^ (970 + 1074))) in * by ring.
        set (V := b * 2 ^ (970 + 1074)) in *. clearbody V. set (X := a * 2 ^ 1074) in *. clearbody X.
        assert (Z1 : m1 = 2 ^ 53 - 1) by lia. subst m2. clearbody m1. subst m1.
        destruct r as [rm rr rs]; cbn [shr_r shr_s] in S1.
        destruct rr, rs; cbn [loc_of_shr_record round_nearest_even] in H; change (Z.even (2 ^ 53 - 1)) with false in H; cbv iota in H; lia. }
  clear TL. destruct (Z.eqb_spec m2 (2 ^ 53)) as [E2|E2].
  - cbn [shr_m]. change (2 ^ 52) with (Zpos 4503599627370496) at 1.
    destruct (Zle_bool (e + 1) (1024 - 53)) eqn:LE.
    + apply Zle_bool_imp_le in LE. cbn [rounded]. split; [reflexivity|]. split; [unfold binary64; lia|]. split.
      * apply CL; [lia| |reflexivity]. unfold steps. rewrite E2. replace (e + 1 + 1074) with (e + 1074 + 1) by lia.
        rewrite (Z.pow_add_r 2 (e + 1074) 1) by lia. lia.
      * rewrite OV. lia.
    + assert (~ (e + 1 <= 971)) by (intros X; apply Zle_imp_le_bool in X; change (1024 - 53) with 971 in LE; congruence).
      cbn [rounded]. split; [reflexivity|]. apply OV. lia.
  - cbn [shr_m]. destruct m2 as [|p|p] eqn:M; [| |lia].
    + assert (e = -1074) as -> by lia. cbn [rounded]. split; [reflexivity|]. split; [apply CL; [lia|reflexivity|auto]|]. rewrite OV. lia.
    + destruct (Zle_bool e (1024 - 53)) eqn:LE.
      * apply Zle_bool_imp_le in LE. cbn [rounded]. split; [reflexivity|]. split; [unfold binary64; lia|]. split; [apply CL; [lia|reflexivity|auto]|]. rewrite OV. lia.
      * assert (~ (e <= 971)) by (intros X; apply Zle_imp_le_bool in X; change (1024 - 53) with 971 in LE; congruence).
        cbn [rounded]. split; [reflexivity|]. apply OV. lia.
Qed.

(** ** Integers and fractions *)

Lemma shift_pos_value d p : Zpos (shift_pos d p) = Zpos p * 2 ^ Zpos d.
Proof. rewrite shift_pos_correct, Zpower_pos_nat, Zpower_nat_Z, positive_nat_Z. ring. Qed.

Lemma round_integer neg p : rounded neg (Zpos p) 1 (binary_round 53 1024 neg p 0).
Proof.
  unfold binary_round, shl_align. rewrite Z.add_0_r, Z.sub_0_r.
  assert (DP := digits_pos p). unfold fexp, emin. change (3 - 1024 - 53) with (-1074).
  destruct (Z.max (Zpos (digits2_pos p) - 53) (-1074)) as [|d|d] eqn:F.
  - apply round_aux; try lia; [unfold fexp, emin; cbn [Zdigits2]; change (3 - 1024 - 53) with (-1074); lia|]. unfold stands. cbn [shr_record_of_loc shr_m shr_r shr_s].
    split; [lia|]. now rewrite Z.add_0_l, Z.mul_1_l.
  - apply round_aux; try lia; [unfold fexp, emin; cbn [Zdigits2]; change (3 - 1024 - 53) with (-1074); lia|]. unfold stands. cbn [shr_record_of_loc shr_m shr_r shr_s].
    split; [lia|]. now rewrite Z.add_0_l, Z.mul_1_l.
  - assert (V := shift_pos_value d p). apply round_aux; try lia.
    + unfold fexp, emin. cbn [Zdigits2]. rewrite (digits_unique (shift_pos d p) (Zpos (digits2_pos p) + Zpos d)); [lia| |lia].
      rewrite V. replace (Zpos (digits2_pos p) + Zpos d - 1) with (Zpos (digits2_pos p) - 1 + Zpos d) by lia.
      rewrite !Z.pow_add_r by lia. assert (0 < 2 ^ Zpos d) by (apply Z.pow_pos_nonneg; lia). split; [apply Z.mul_le_mono_nonneg_r|apply Z.mul_lt_mono_pos_r]; lia.
    + unfold stands. cbn [shr_record_of_loc shr_m shr_r shr_s]. split; [lia|]. rewrite V, Z.mul_1_l, <- Z.mul_assoc, <- Z.pow_add_r by lia.
      f_equal. f_equal. lia.
Qed.

Lemma round_fraction neg p q :
  rounded neg (Zpos p) (Zpos q)
    (let '(mz, ez, lz) := SFdiv_core_binary 53 1024 (Zpos p) 0 (Zpos q) 0 in binary_round_aux 53 1024 neg mz ez lz).
Proof.
  unfold SFdiv_core_binary. cbn [Zdigits2]. rewrite !Z.add_0_r, Z.sub_0_r.
  assert (DP := digits_pos p). assert (DQ := digits_pos q). set (d1 := Zpos (digits2_pos p)) in *. set (d2 := Zpos (digits2_pos q)) in *.
  assert (1 <= d1 /\ 1 <= d2) as [Hd1 Hd2] by lia. clearbody d1 d2.
  set (e := Z.min (fexp 53 1024 (d1 - d2)) 0). assert (HE : -1074 <= e <= 0) by (subst e; unfold fexp, emin; lia).
  assert (HF : e <= Z.max (d1 - d2 - 53) (-1074)) by (subst e; unfold fexp, emin; lia).
  clearbody e. set (m' := match 0 - e with Z0 => Zpos p | Zpos _ => Z.shiftl (Zpos p) (0 - e) | Zneg _ => 0 end).
  assert (M : m' = Zpos p * 2 ^ (- e)).
  { subst m'. destruct (0 - e) as [|x|x] eqn:X; [replace (- e) with 0 by lia; lia| |lia]. rewrite <- X, Z.shiftl_mul_pow2 by lia. f_equal. }
  clearbody m'. assert (DE := Z_div_mod m' (Zpos q) eq_refl). destruct (Z.div_eucl m' (Zpos q)) as [k r]. destruct DE as [DE DR].
  assert (U : 0 < 2 ^ (- e)) by (apply Z.pow_pos_nonneg; lia).
  assert (K0 : 0 <= k) by nia.
  apply round_aux; try lia.
  - unfold fexp, emin. change (3 - 1024 - 53) with (-1074). destruct (Z.le_gt_cases (d1 - d2) e) as [L|L]; [lia|].
    assert (KL : 2 ^ (d1 - d2 - 1 - e) <= k).
    { assert (X : 2 ^ (d1 - 1) * 2 ^ (- e) < 2 ^ d2 * (k + 1)) by nia. rewrite <- Z.pow_add_r in X by lia.
      replace (d1 - 1 + - e) with (d2 + (d1 - d2 - 1 - e)) in X by lia. rewrite Z.pow_add_r in X by lia.
      apply Z.mul_lt_mono_pos_l in X; [lia|]. apply Z.pow_pos_nonneg; lia. }
    assert (KP : 0 < 2 ^ (d1 - d2 - 1 - e)) by (apply Z.pow_pos_nonneg; lia).
    destruct (digits_nonneg k K0) as (D0 & D1 & D2).
    assert (X : 2 ^ (d1 - d2 - 1 - e) < 2 ^ Zdigits2 k) by lia. apply Z.pow_lt_mono_r_iff in X; [|lia..]. lia.
  - assert (A : Zpos p * 2 ^ 1074 = m' * 2 ^ (e + 1074)).
    { rewrite M, <- Z.mul_assoc, <- Z.pow_add_r by lia. f_equal. f_equal. lia. }
    rewrite A, DE. assert (W : 0 < 2 ^ (e + 1074)) by (apply Z.pow_pos_nonneg; lia).
    set (w := 2 ^ (e + 1074)) in *. set (b := Zpos q) in *. assert (B : 0 < b) by (subst b; lia).
    clear A M DE DP DQ HE HF U. clearbody b.
    assert (NL : new_location b r = if r =? 0 then loc_Exact else loc_Inexact (2 * r ?= b)).
    { assert (HR : Zeq_bool r 0 = (r =? 0)) by (unfold Zeq_bool, Z.eqb; destruct r; reflexivity).
      unfold new_location. destruct (Z.even b) eqn:EV; [unfold new_location_even|unfold new_location_odd]; rewrite HR; [reflexivity|].
      destruct (r =? 0); [reflexivity|]. f_equal. assert (2 * r <> b) by (intros <-; rewrite Z.even_mul in EV; discriminate).
      destruct (Z.compare_spec (2 * r + 1) b), (Z.compare_spec (2 * r) b); try reflexivity; lia. }
    rewrite NL. unfold stands. fold w. clear NL. clearbody w. destruct (Z.eqb_spec r 0) as [->|R0].
    + cbn [shr_record_of_loc shr_m shr_r shr_s]. split; [exact K0|ring].
    + assert (RW : 0 < r * w < b * w) by nia. destruct (Z.compare_spec (2 * r) b) as [C|C|C]; cbn [shr_record_of_loc shr_m shr_r shr_s]; (split; [exact K0|]); nia.
Qed.

(** @prop C96 A decimal number is rounded correctly: the float is the nearest to it, the one with the even
    significand of two that are equally near; it is infinite exactly if the number is at least half a unit
    beyond the largest float. *)
Lemma decimal_to_float :
  forall neg m e, rounded neg (Z.of_N m * 10 ^ Z.max 0 e) (10 ^ Z.max 0 (- e)) (float_of_scaled neg m e).
Proof.
  intros neg m e. unfold float_of_scaled. destruct m as [|p].
  - cbn [rounded Z.of_N]. rewrite Z.mul_0_l. assert (P : 0 < 10 ^ Z.max 0 (- e)) by (apply Z.pow_pos_nonneg; lia).
    set (b := 10 ^ Z.max 0 (- e)) in *. clearbody b. split; [reflexivity|]. split.
    + intros m' e' H1 H2. unfold off. split; [|auto]. unfold steps. rewrite !Z.mul_0_l, Z.mul_0_r. lia.
    + unfold too_large. intros H. assert (0 < b * ((2 ^ 54 - 1) * 2 ^ 970)); [|lia]. apply Z.mul_pos_pos; [exact P|]. apply Z.mul_pos_pos; [lia|]. apply Z.pow_pos_nonneg; lia.
  - destruct (Z.leb_spec 0 e) as [H|H].
    + rewrite Z.max_r by lia. rewrite (Z.max_l 0 (- e)) by lia. change (10 ^ 0) with 1. cbn [Z.of_N].
      assert (P : 0 < Zpos p * 10 ^ e) by (apply Z.mul_pos_pos; [lia|apply Z.pow_pos_nonneg; lia]).
      replace (if neg then Zneg p * 10 ^ e else Zpos p * 10 ^ e) with (if neg then - (Zpos p * 10 ^ e) else Zpos p * 10 ^ e)
        by (destruct neg; [rewrite <- Z.mul_opp_l|]; reflexivity).
      destruct (Zpos p * 10 ^ e) as [|q|q]; [lia| |lia]. unfold binary_normalize.
      destruct neg; cbn [Z.opp]; apply round_integer.
    + rewrite Z.max_l by lia. rewrite (Z.max_r 0 (- e)) by lia. change (10 ^ 0) with 1. rewrite Z.mul_1_r. cbn [Z.of_N].
      assert (P : 0 < 10 ^ (- e)) by (apply Z.pow_pos_nonneg; lia). destruct (10 ^ (- e)) as [|q|q]; [lia| |lia]. apply round_fraction.
Qed.
(** @example
Example C96_example :
  (* 0.1, the halfway case 2^53 + 1, the smallest float, half of it, and what is too large *)
  float_of_scaled false 1 (-1) = S754_finite false 7205759403792794 (-56)
  /\ float_of_scaled false 9007199254740993 0 = S754_finite false 4503599627370496 1
  /\ float_of_scaled true 49 (-325) = S754_finite true 1 (-1074)
  /\ float_of_scaled true 24 (-325) = S754_zero true
  /\ float_of_scaled false 2 308 = S754_infinity false.
Proof. vm_compute. repeat split. Qed.
@end *)

(** @prop C96 A Float field that unserializes an integer or a boolean processes the nearest float, and refuses
    integers beyond all floats as of an invalid type. *)
Lemma float_from_integer :
  forall E desc recon n p mn mx partial anc,
    let k := KFloat mn mx in
    let given v := process_gen E desc recon n (Fld p k) partial Inbound true anc v in
    let native v := process_gen E desc recon n (Fld p k) partial Inbound false anc v in
    (forall z, too_large (Z.abs z) 1 -> given (VInt z) = invalid_type (path_of p k anc))
    /\ (forall z, ~ too_large (Z.abs z) 1 -> exists f, rounded (z <? 0) (Z.abs z) 1 f /\ given (VInt z) = native (VFloat f))
    /\ given (VBool true) = native (VFloat (S754_finite false 4503599627370496 (-52)))
    /\ given (VBool false) = native (VFloat (S754_zero false)).
Proof.
  intros E desc recon n p mn mx partial anc k given native.
  assert (R : forall z, rounded (z <? 0) (Z.abs z) 1 (binary_normalize 53 1024 z 0 false)).
  { intros z. destruct z as [|q|q]; [|apply round_integer|apply round_integer]. exact (decimal_to_float false 0 0). }
  split; [|split; [|split; (apply converted_as; [reflexivity|reflexivity|discriminate|discriminate|vm_compute; reflexivity])]]; intros z H; specialize (R z).
  - apply not_converted; try reflexivity; [discriminate|]. cbn [unserialize_value to_float k]. unfold float_of_Z.
    destruct (binary_normalize 53 1024 z 0 false); cbn [rounded] in R; try tauto.
  - exists (binary_normalize 53 1024 z 0 false). split; [exact R|]. apply converted_as; try reflexivity; try discriminate.
    cbn [unserialize_value to_float k]. unfold float_of_Z. destruct (binary_normalize 53 1024 z 0 false); cbn [rounded] in R; try tauto; reflexivity.
Qed.
(** @example
Example C96_integer_example :
  ~ too_large 9007199254740993 1
  /\ process_gen env0 nodesc norecon 9 (Fld p0 (KFloat None None)) false Inbound true [] (VInt 9007199254740993)
     = Ok (VFloat (S754_finite false 4503599627370496 1)).
Proof. split; [vm_compute; intros H; now apply H|vm_compute; reflexivity]. Qed.
@end *)

(** @prop C96 A Float field that unserializes a decimal processes the nearest float, infinite if it is too
    large. *)
Lemma float_from_decimal :
  forall E desc recon n p mn mx partial anc neg c e,
    let k := KFloat mn mx in
    exists f, rounded neg (Z.of_N c * 10 ^ Z.max 0 e) (10 ^ Z.max 0 (- e)) f
      /\ process_gen E desc recon n (Fld p k) partial Inbound true anc (VDec (DFin neg c e))
         = process_gen E desc recon n (Fld p k) partial Inbound false anc (VFloat f).
Proof.
  intros E desc recon n p mn mx partial anc neg c e k. exists (float_of_scaled neg c e). split; [apply decimal_to_float|].
  apply converted_as; try reflexivity; discriminate.
Qed.
(** @example
Example C96_decimal_example :
  process_gen env0 nodesc norecon 9 (Fld p0 (KFloat None None)) false Inbound true [] (VDec (DFin true 25 (-1)))
  = Ok (VFloat (S754_finite true 5629499534213120 (-51))).
Proof. vm_compute. reflexivity. Qed.
@end *)

(** ** Texts *)

Lemma sign_taken sign neg r :
  sign_text sign neg -> (forall c q, r = c :: q -> c <> 45%N /\ c <> 43%N) -> take_sign (sign ++ r) = (neg, r).
Proof.
  intros [[-> ->]|[[-> | ->] ->]] H; [reflexivity| |reflexivity].
  cbn [app]. destruct r as [|c q]; [reflexivity|]. destruct (H c q eq_refl). cbn [take_sign].
  destruct (N.eqb_spec c 45); [contradiction|]. destruct (N.eqb_spec c 43); [contradiction|]. reflexivity.
Qed.

Lemma digit_start ds r : Forall dig ds ->
  (forall c q, r = c :: q -> c <> 45%N /\ c <> 43%N) -> forall c q, render ds ++ r = c :: q -> c <> 45%N /\ c <> 43%N.
Proof.
  intros [|d ds' Hd Hds] H c q X; [apply (H c q X)|]. unfold render in X. cbn [map app] in X.
  assert (c = (48 + d)%N) by congruence. unfold dig in Hd. lia.
Qed.

Definition char_ok (c : N) : Prop := is_ascii_space c = false /\ (c < 127)%N /\ c <> 95%N.
Lemma render_ok ds : Forall dig ds -> Forall char_ok (render ds).
Proof.
  intros Hd. apply Forall_forall. intros c Hc. apply render_In in Hc; [|exact Hd]. unfold char_ok, is_ascii_space. lia.
Qed.
Lemma sign_ok sign neg : sign_text sign neg -> Forall char_ok sign.
Proof.
  intros [[-> _]|[[-> | ->] _]]; repeat constructor; cbn; lia.
Qed.

Lemma finite_text a point b exponent z :
  Forall dig (a ++ b) -> a ++ b <> [] ->
  (point = $"." \/ point = [] /\ b = []) ->
  (exponent = [] /\ z = 0
   \/ exists letter sign' eneg ds, exponent = letter ++ sign' ++ digit_text ds
        /\ (letter = $"e" \/ letter = $"E") /\ sign_text sign' eneg
        /\ ds <> [] /\ Forall dig ds
        /\ z = if eneg then - place_value ds else place_value ds) ->
  parse_finite (render a ++ point ++ render b ++ exponent) = Some (a ++ b, z - zlen b)
  /\ Forall char_ok exponent.
Proof.
  intros Hd Hn Hp Hx. apply Forall_app in Hd. destruct Hd as [Ha Hb].
  assert (Hex : no_digit_first exponent /\ Forall char_ok exponent
    /\ (exponent = [] \/ exists ch r, exponent = ch :: r /\ (ch = 69%N \/ ch = 101%N)) 
    /\ (forall l0, a ++ b = l0 -> match exponent with
        | [] => Some (l0, (- zlen b)%Z)
        | e :: r3 => if (N.eqb e 69) || (N.eqb e 101) then
            let (eneg, r4) := take_sign r3 in
            match take_digits r4 with
            | ([], _) => None
            | (es, []) => Some (l0, (signed eneg (digits_val es) - zlen b)%Z)
            | (_, _ :: _) => None
            end else None end = Some (l0, z - zlen b))).
  { destruct Hx as [[-> ->]|[letter [sg [en [ds [-> [Hl [Hs [Hds [Hdd ->]]]]]]]]]].
    - split; [intros c r [=]|]. split; [constructor|]. split; [left; reflexivity|]. intros l0 _. f_equal.
    - change (digit_text ds) with (render ds).
      assert (T : take_sign (sg ++ render ds) = (en, render ds)).
      { apply sign_taken; [exact Hs|]. intros c q X. rewrite <- (app_nil_r (render ds)) in X.
        apply (digit_start ds [] Hdd) in X; [exact X|discriminate]. }
      assert (O : Forall char_ok (sg ++ render ds)) by (apply Forall_app; split; [eapply sign_ok, Hs|apply render_ok, Hdd]).
      assert (exists ch, letter = [ch] /\ (ch = 69%N \/ ch = 101%N)) as [ch [-> Hch]].
      { destruct Hl as [-> | ->]; eexists; split; reflexivity || auto. }
      cbn [app]. split; [intros c r X; assert (c = ch) by congruence; subst; destruct Hch; subst; reflexivity|].
      split; [constructor; [destruct Hch; subst; cbn; unfold char_ok; cbn; lia|exact O]|].
      split; [right; eauto|]. intros l0 _.
      replace (N.eqb ch 69 || N.eqb ch 101)%bool with true by (destruct Hch; subst; reflexivity).
      rewrite T, take_digits_render' by exact Hdd. destruct ds; [contradiction|]. unfold signed. rewrite place_digits.
      destruct en; reflexivity. }
  destruct Hex as [N1 [N2 [N3 N4]]]. split; [|exact N2].
  unfold parse_finite. destruct Hp as [-> | [-> ->]].
  - change ($"." ++ render b ++ exponent) with (46%N :: render b ++ exponent).
    rewrite take_digits_render by (auto; intros c r X; assert (c = 46%N) by congruence; subst; reflexivity).
    cbv beta iota. change (N.eqb 46 46) with true. cbv iota. rewrite take_digits_render by auto.
    cbv beta iota. specialize (N4 _ eq_refl). destruct (a ++ b); [contradiction|]. exact N4.
  - change ([] ++ render [] ++ exponent) with exponent. rewrite take_digits_render by auto. cbv beta iota.
    specialize (N4 _ eq_refl). 
    match goal with |- (let (_, _) := ?m in _) = _ => assert (E : m = ([], exponent)) by (destruct N3 as [-> | [ch [r [-> [-> | ->]]]]]; reflexivity) end.
    rewrite E. cbv beta iota. destruct (a ++ []); [contradiction|]. exact N4.
Qed.

Lemma float_text_read ud s neg c x :
  float_text s neg c x -> parse_float ud s = Some (float_of_scaled neg (Z.to_N c) x).
Proof.
  intros [w [sign [a [point [b [ex [z [w' [-> [Hw [Hw' [Hs [Hd [Hn [Hp [Hx [-> ->]]]]]]]]]]]]]]]]].
  destruct (finite_text a point b ex z Hd Hn Hp Hx) as [F Ox].
  change (digit_text a) with (render a). change (digit_text b) with (render b).
  assert (Hab := Hd). apply Forall_app in Hab. destruct Hab as [Ha Hb].
  set (rest := render a ++ point ++ render b ++ ex) in *.
  assert (Or : Forall char_ok rest).
  { unfold rest. repeat (apply Forall_app; split); try (apply render_ok; assumption); [|exact Ox].
    destruct Hp as [-> | [-> _]]; repeat constructor; cbn; lia. }
  assert (Ob : Forall char_ok (sign ++ rest)) by (apply Forall_app; split; [eapply sign_ok, Hs|exact Or]).
  assert (Hsp : forall y, Forall (fun ch => is_ascii_space ch = true) y -> Forall (fun ch => (ch < 127)%N) y).
  { intros y. apply Forall_impl. intros ch. unfold is_ascii_space. lia. }
  unfold parse_float. rewrite ascii_id.
  2:{ apply Forall_app; split; [apply Hsp, Hw|]. apply Forall_app; split; [|apply Hsp, Hw'].
      eapply Forall_impl; [|exact Ob]. intros ch [_ [H _]]. exact H. }
  unfold parse_float_ascii. rewrite strip_app; auto.
  2:{ intros ch r Hc. rewrite Hc in Ob. inversion Ob; subst. apply H1. }
  2:{ intros ch r Hc. rewrite Hc in Ob. apply Forall_app in Ob. destruct Ob as [_ Ob]. inversion Ob; subst. apply H1. }
  rewrite ununder_none.
  2:{ intros Hi. rewrite Forall_forall in Ob. destruct (Ob _ Hi) as [_ [_ Hi']]. congruence. }
  assert (Start : exists ch r, rest = ch :: r /\ (ch = 46%N \/ exists d, ch = (48 + d)%N /\ dig d)).
  { unfold rest. destruct Ha as [|d a' Hd0 Ha']; [|eexists _, _; split; [reflexivity|right; eauto]].
    destruct Hp as [-> | [-> ->]]; [eexists _, _; split; [reflexivity|auto]|contradiction]. }
  destruct Start as [ch [r [Er Hch]]].
  rewrite sign_taken with (neg := neg); [|exact Hs|].
  2:{ intros c q Hc. rewrite Er in Hc. assert (c = ch) by congruence. subst c. 
      destruct Hch as [-> | [d [-> Hd0]]]; [lia|unfold dig in Hd0; lia]. }
  cbv beta iota zeta. rewrite F.
  assert (L : lower_ascii ch = ch /\ ch <> 105%N /\ ch <> 110%N).
  { unfold lower_ascii. destruct Hch as [-> | [d [-> Hd0]]]; [split; [reflexivity|lia]|]. unfold dig in Hd0.
    destruct (N.leb_spec 65 (48 + d)); cbn [andb]; lia. }
  destruct L as [L1 [L2 L3]]. rewrite Er. cbn [map]. rewrite L1.
  assert (W : forall q p' q', q <> ch -> str_eqb (ch :: p') (q :: q') = false).
  { intros q p' q' Hq. destruct (str_eqb_spec (ch :: p') (q :: q')); congruence. }
  change ($"inf") with (105%N :: $"nf"). change ($"infinity") with (105%N :: $"nfinity"). change ($"nan") with (110%N :: $"an").
  rewrite !W by congruence. cbn [orb]. f_equal. f_equal. rewrite <- place_digits, N2Z.id. reflexivity.
Qed.

Lemma place_nonneg ds : 0 <= place_value ds.
Proof. rewrite <- place_digits. lia. Qed.

(** @prop C96 A Float field that unserializes the text of a decimal number processes the nearest float,
    infinite if it is too large, however many digits the text has. *)
Lemma float_from_text :
  forall E desc recon n p mn mx partial anc s neg c x,
    let k := KFloat mn mx in
    float_text s neg c x ->
    exists f, rounded neg (c * 10 ^ Z.max 0 x) (10 ^ Z.max 0 (- x)) f
      /\ process_gen E desc recon n (Fld p k) partial Inbound true anc (VStr s)
         = process_gen E desc recon n (Fld p k) partial Inbound false anc (VFloat f).
Proof.
  intros E desc recon n p mn mx partial anc s neg c x k Hs. exists (float_of_scaled neg (Z.to_N c) x).
  assert (Hc : 0 <= c).
  { destruct Hs as [? [? [? [? [? [? [? [? [_ [_ [_ [_ [_ [_ [_ [_ [-> _]]]]]]]]]]]]]]]]]. apply place_nonneg. }
  split; [rewrite <- (Z2N.id c Hc) at 1; apply decimal_to_float|].
  apply converted_as; try reflexivity; try discriminate. cbn [unserialize_value k]. unfold to_float.
  rewrite (float_text_read _ _ _ _ _ Hs). reflexivity.
Qed.
(** @example
Example C96_text_example :
  float_text $" -1.5e-3" true 15 (-4)
  /\ process_gen env0 nodesc norecon 9 (Fld p0 (KFloat None None)) false Inbound true [] (VStr $" -1.5e-3")
     = Ok (VFloat (S754_finite true 6917529027641082 (-62))).
Proof.
  split; [|vm_compute; reflexivity].
  exists $" ", $"-", [1%N], $".", [5%N], $"e-3", (-3), [].
  split; [reflexivity|]. split; [repeat constructor|]. split; [constructor|]. split; [left; auto|].
  split; [repeat constructor|]. split; [discriminate|]. split; [left; reflexivity|]. split; [|split; reflexivity].
  right. exists $"e", $"-", true, [3%N]. split; [reflexivity|]. split; [left; reflexivity|].
  split; [left; auto|]. split; [discriminate|]. split; [repeat constructor|reflexivity].
Qed.
@end *)

(** ** Decimals from triples *)

Lemma digit_list_iff l : forall ds, digit_list l = Some ds <-> digit_values l ds.
Proof.
  induction l as [|v l IH]; intros ds.
  - split; [intros [= <-]; constructor|intros H; inversion H; reflexivity].
  - assert (Step : forall d, (d < 10)%N -> (match digit_list l with Some r => Some (d :: r) | None => None end) = Some ds <-> exists r, ds = d :: r /\ digit_values l r).
    { intros d Hd. destruct (digit_list l) as [r|] eqn:E.
      - split; [intros [= <-]; exists r; split; [reflexivity|apply IH; reflexivity]|]. intros [r' [-> Hr]]. apply IH in Hr. congruence.
      - split; [discriminate|]. intros [r' [-> Hr]]. apply IH in Hr. discriminate. }
    split.
    + destruct v; try discriminate; cbn [digit_list].
      * intros H. apply Step in H; [|destruct b; cbn; lia]. destruct H as [r [-> Hr]]. constructor; [|exact Hr]. destruct b; (split; [reflexivity|auto]).
      * destruct ((0 <=? z) && (z <=? 9)) eqn:Hz; [|discriminate]. intros H. apply Step in H; [|lia]. destruct H as [r [-> Hr]].
        constructor; [|exact Hr]. split; [lia|]. left. f_equal. lia.
    + intros H. inversion H as [|? d ? r [Hd Hv] Hr]; subst. destruct Hv as [-> |[[-> ->]|[-> ->]]]; cbn [digit_list].
      * replace ((0 <=? Z.of_N d) && (Z.of_N d <=? 9)) with true by lia. rewrite N2Z.id. apply Step; eauto.
      * apply (Step 1%N Hd). eauto.
      * apply (Step 0%N Hd). eauto.
Qed.

Lemma place_to_N ds : Z.to_N (place_value ds) = digits_val ds.
Proof. rewrite <- place_digits. apply N2Z.id. Qed.

Lemma triple_iff sign digits expo d : dec_of_triple sign digits expo = Some d <->
  exists neg l ds, (sign = VInt (if neg : bool then 1 else 0) \/ sign = VBool neg)
    /\ (digits = VTuple l \/ digits = VList l) /\ digit_values l ds
    /\ ((exists e, (expo = VInt e \/ expo = VBool true /\ e = 1 \/ expo = VBool false /\ e = 0)
                   /\ d = DFin neg (Z.to_N (place_value ds)) e)
        \/ expo = VStr $"F" /\ d = DInf neg
        \/ expo = VStr $"n" /\ d = DNan neg false (Z.to_N (place_value ds))
        \/ expo = VStr $"N" /\ d = DNan neg true (Z.to_N (place_value ds))).
Proof.
  unfold dec_of_triple. split.
  - match goal with |- match ?m with _ => _ end = _ -> _ => destruct m as [neg|] eqn:Hs; [|discriminate] end.
    match goal with |- match ?m with _ => _ end = _ -> _ => destruct m as [ds|] eqn:Hd; [|discriminate] end.
    assert (Hs' : sign = VInt (if neg : bool then 1 else 0) \/ sign = VBool neg).
    { destruct sign; try discriminate; [right; congruence|]. left. destruct z as [|[q|q|]|]; try discriminate; injection Hs as <-; reflexivity. }
    assert (Hd' : exists l, (digits = VTuple l \/ digits = VList l) /\ digit_values l ds).
    { destruct digits; try discriminate; apply digit_list_iff in Hd; eauto. }
    destruct Hd' as [l [Hl Hv]]. intros H. exists neg, l, ds. split; [exact Hs'|]. split; [exact Hl|]. split; [exact Hv|].
    rewrite place_to_N. destruct expo; try discriminate.
    + injection H as <-. left. destruct b; [exists 1|exists 0]; split; auto.
    + injection H as <-. left. eauto.
    + destruct (str_eqb_spec s $"F"); [subst; injection H as <-; auto|].
      destruct (str_eqb_spec s $"n"); [subst; injection H as <-; auto|].
      destruct (str_eqb_spec s $"N"); [subst; injection H as <-; auto|]. discriminate.
  - intros [neg [l [ds [Hs [Hl [Hv H]]]]]]. apply digit_list_iff in Hv. rewrite place_to_N in H.
    replace (match sign with VInt 0 => Some false | VInt 1 => Some true | VBool b => Some b | _ => None end) with (Some neg)
      by (destruct Hs as [-> | ->]; [destruct neg|]; reflexivity).
    replace (match digits with VTuple l0 | VList l0 => digit_list l0 | _ => None end) with (Some ds)
      by (destruct Hl as [-> | ->]; symmetry; exact Hv).
    destruct H as [[e [[-> |[[-> ->]|[-> ->]]] ->]]|[[-> ->]|[[-> ->]|[-> ->]]]]; reflexivity.
Qed.

(** @prop C75 A Decimal field that unserializes a tuple or a list takes a sign, a sequence of digits and an
    exponent (or a letter for infinities and NaNs) as the decimal they make, and refuses every other tuple or list
    as of an invalid type. *)
Lemma decimal_from_triple :
  forall E desc recon n p mn mx partial anc v,
    let k := KDecimal mn mx in
    (exists l, v = VTuple l \/ v = VList l) ->
    (forall d, decimal_triple v d ->
       process_gen E desc recon n (Fld p k) partial Inbound true anc v
       = process_gen E desc recon n (Fld p k) partial Inbound false anc (VDec d))
    /\ ((forall d, ~ decimal_triple v d) ->
       process_gen E desc recon n (Fld p k) partial Inbound true anc v = invalid_type (path_of p k anc)).
Proof.
  intros E desc recon n p mn mx partial anc v k Hv.
  assert (T : forall d, to_dec (e_udigit E) v = Some d <-> decimal_triple v d).
  { intros d. split.
    - destruct Hv as [l [-> | ->]]; (destruct l as [|sg [|dg [|ex [|? ?]]]]; try discriminate); cbn [to_dec]; intros H;
        apply triple_iff in H; destruct H as [neg [l [ds H]]]; exists sg, dg, ex, neg, l, ds; auto.
    - intros [sg [dg [ex [neg [l [ds [Hw H]]]]]]]. transitivity (dec_of_triple sg dg ex); [destruct Hw as [-> | ->]; reflexivity|].
      apply triple_iff. eauto. }
  assert (U : unserialize_value E recon k (path_of p k anc) v = or_invalid (path_of p k anc) VDec (to_dec (e_udigit E) v)).
  { destruct Hv as [l [-> | ->]]; reflexivity. }
  split.
  - intros d Hd. apply T in Hd. rewrite Hd in U. apply converted_as; try reflexivity; [|discriminate|exact U].
    destruct Hv as [l [-> | ->]]; discriminate.
  - intros Hn. destruct (to_dec (e_udigit E) v) as [d|] eqn:Hd; [exfalso; eapply Hn, T; reflexivity|].
    apply not_converted; try reflexivity; [|exact U]. destruct Hv as [l [-> | ->]]; discriminate.
Qed.
(** @example
Example C75_triple_example :
  decimal_triple (VTuple [VInt 1; VTuple [VInt 1; VInt 2]; VInt (-1)]) (DFin true 12 (-1))
  /\ process_gen env0 nodesc norecon 9 (Fld p0 (KDecimal None None)) false Inbound true []
       (VTuple [VInt 1; VTuple [VInt 1; VInt 2]; VInt (-1)])
     = Ok (VDec (DFin true 12 (-1))).
Proof.
  split; [|vm_compute; reflexivity].
  exists (VInt 1), (VTuple [VInt 1; VInt 2]), (VInt (-1)), true, [VInt 1; VInt 2], [1%N; 2%N].
  split; [left; reflexivity|]. split; [left; reflexivity|]. split; [left; reflexivity|].
  split; [repeat constructor|]. left. exists (-1). split; [left; reflexivity|reflexivity].
Qed.
@end *)

(** ** Digits of other scripts *)

Lemma other_num E s s' : other_digits E s s' -> to_ascii_num (e_udigit E) s = to_ascii_num (e_udigit E) s'.
Proof.
  unfold to_ascii_num. induction 1 as [|c c' s s' Hc Hs IH]; [reflexivity|]. cbn [map]. f_equal; [|exact IH].
  destruct Hc as [-> |[H1 [H2 [d [H3 [H4 ->]]]]]]; [reflexivity|]. rewrite H2, H3.
  destruct (N.ltb_spec c 127); [lia|]. destruct (N.ltb_spec (48 + d) 127); [reflexivity|lia].
Qed.

Lemma other_space E c c' : (c = c' \/ (127 <= c)%N /\ is_space c = false
    /\ exists d, e_udigit E c = Some d /\ (d < 10)%N /\ c' = (48 + d)%N) -> is_space c = is_space c' /\ (c =? 95)%N = (c' =? 95)%N.
Proof.
  intros [-> |[H1 [H2 [d [H3 [H4 ->]]]]]]; [split; reflexivity|]. split; [|lia]. rewrite H2. unfold is_space. lia.
Qed.

Lemma other_lstrip E s s' : other_digits E s s' -> other_digits E (lstrip is_space s) (lstrip is_space s').
Proof.
  induction 1 as [|c c' s s' Hc Hs IH]; [constructor|]. cbn [lstrip]. destruct (other_space E c c' Hc) as [<- _].
  case (is_space c); [exact IH|]. constructor; [exact Hc|exact Hs].
Qed.
Lemma other_rstrip E s s' : other_digits E s s' -> other_digits E (rstrip is_space s) (rstrip is_space s').
Proof.
  induction 1 as [|c c' s s' Hc Hs IH]; [constructor|]. cbn [rstrip].
  destruct IH as [|x x' y y' Hx Hy]; [|constructor; [exact Hc|constructor; [first [exact Hc|exact Hx]|first [exact Hs|exact Hy|exact IH]]]].
  destruct (other_space E c c' Hc) as [<- _]. case (is_space c); [constructor|]. constructor; [exact Hc|constructor].
Qed.
Lemma other_filter E s s' : other_digits E s s' -> other_digits E (filter (fun c => negb (c =? 95)%N) s) (filter (fun c => negb (c =? 95)%N) s').
Proof.
  induction 1 as [|c c' s s' Hc Hs IH]; [constructor|]. cbn [filter]. destruct (other_space E c c' Hc) as [_ <-].
  destruct (negb (c =? 95)%N); [constructor; [first [exact Hc|exact Hx]|first [exact Hs|exact Hy|exact IH]]|exact IH].
Qed.

Lemma other_dec E s s' : other_digits E s s' -> parse_dec (e_udigit E) s = parse_dec (e_udigit E) s'.
Proof.
  intros H. unfold parse_dec, strip. f_equal. apply other_lstrip, other_rstrip, other_filter in H.
  induction H as [|c c' t t' Hc Hs IH]; [reflexivity|]. cbn [map]. f_equal; [|exact IH].
  destruct Hc as [-> |[H1 [H2 [d [H3 [H4 ->]]]]]]; [reflexivity|]. rewrite H3.
  destruct (N.ltb_spec c 127); [lia|]. destruct (N.ltb_spec (48 + d) 127); [reflexivity|lia].
Qed.

(** @prop C75 Integers, floats and decimals may be written with the digits of other scripts: the text is processed
    like the one with the digits of ASCII. *)
Lemma digits_of_other_scripts :
  forall E desc recon n p k partial anc s s',
    match k with KInteger _ _ | KFloat _ _ | KDecimal _ _ => True | _ => False end ->
    other_digits E s s' ->
    process_gen E desc recon n (Fld p k) partial Inbound true anc (VStr s)
    = process_gen E desc recon n (Fld p k) partial Inbound true anc (VStr s').
Proof.
  intros E desc recon n p k partial anc s s' Hk Hs.
  assert (U : unserialize_value E recon k (path_of p k anc) (VStr s) = unserialize_value E recon k (path_of p k anc) (VStr s')).
  { destruct k; try contradiction; cbn [unserialize_value to_int to_float to_dec];
      unfold parse_int, parse_float; rewrite ?(other_num E s s' Hs), ?(other_dec E s s' Hs); reflexivity. }
  assert (B : basic k = true) by (destruct k; try contradiction; reflexivity).
  assert (I : kind_ignored k = None) by (destruct k; try contradiction; reflexivity).
  rewrite !process_basic by exact B. unfold process_scalar. rewrite I, !is_null_some by discriminate.
  cbn [bind andb phase_eqb]. rewrite U. reflexivity.
Qed.
(** @example
Example C75_digits_of_other_scripts_example :
  forall E desc recon, e_udigit E 1635%N = Some 3%N ->
    other_digits E [1635; 46; 53]%N ($"3.5")
    /\ process_gen E desc recon 3%nat (Fld p0 (KDecimal None None)) false Inbound true [] (VStr [1635; 46; 53]%N)
       = Ok (VDec (DFin false 35 (-1)))
    /\ process_gen E desc recon 3%nat (Fld p0 (KInteger None None)) false Inbound true [] (VStr [49; 1635]%N)
       = Ok (VInt 13).
Proof.
  intros E desc recon H. split; [|split].
  - repeat first [apply Forall2_nil | apply Forall2_cons; [first [left; reflexivity
      | right; split; [discriminate|]; split; [reflexivity|]; exists 3%N; split; [exact H|]; split; reflexivity]|]].
  - rewrite (C75_digits_of_other_scripts E desc recon 3%nat p0 (KDecimal None None) false [] _ ($"3.5")); [reflexivity|exact I|].
    repeat first [apply Forall2_nil | apply Forall2_cons; [first [left; reflexivity
      | right; split; [discriminate|]; split; [reflexivity|]; exists 3%N; split; [exact H|]; split; reflexivity]|]].
  - rewrite (C75_digits_of_other_scripts E desc recon 3%nat p0 (KInteger None None) false [] _ ($"13")); [reflexivity|exact I|].
    repeat first [apply Forall2_nil | apply Forall2_cons; [first [left; reflexivity
      | right; split; [discriminate|]; split; [reflexivity|]; exists 3%N; split; [exact H|]; split; reflexivity]|]].
Qed.
@end *)
