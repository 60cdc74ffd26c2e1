(** * [json.loads] reads exactly the grammar of JSON (C74). *)
(* @imports Spec Demo JsonSpec JsonGramSpec *)
From Coq Require Import ZifyBool ZifyN ZifyNat.
From Verif Require Import PyBaseFacts Induct Spec Demo NumFacts NumProofs StSpec XmlProofs JsonSpec JsonProofs JsonGramSpec.
Open Scope N_scope.

Lemma some_inj (A : Type) (a b : A) : Some a = Some b -> a = b.
Proof. now intros [= ->]. Qed.

Lemma hex_iff c n : XmlText.hex_digit c = Some n <-> hexadecimal c n.
Proof.
  unfold XmlText.hex_digit, hexadecimal.
  destruct ((48 <=? c) && (c <=? 57)) eqn:H1; [split; [intros [= <-]|intros H; f_equal]; lia|].
  destruct ((97 <=? c) && (c <=? 102)) eqn:H2; [split; [intros [= <-]|intros H; f_equal]; lia|].
  destruct ((65 <=? c) && (c <=? 70)) eqn:H3; [split; [intros [= <-]|intros H; f_equal]; lia|].
  split; [discriminate|lia].
Qed.

Lemma code_coded a b d e c : json_code a b d e = Some c -> coded c [92; 117; a; b; d; e].
Proof.
  unfold json_code. destruct (XmlText.hex_digit a) as [w|] eqn:A; [|discriminate]. destruct (XmlText.hex_digit b) as [x|] eqn:B; [|discriminate].
  destruct (XmlText.hex_digit d) as [y|] eqn:D; [|discriminate]. destruct (XmlText.hex_digit e) as [z|] eqn:E; [|discriminate].
  intros H. apply some_inj in H. exists a, b, d, e, w, x, y, z. apply hex_iff in A, B, D, E.
  repeat split; try assumption. lia.
Qed.
Lemma coded_code c u : coded c u -> exists a b d e, u = [92; 117; a; b; d; e] /\ json_code a b d e = Some c.
Proof.
  intros (a & b & d & e & w & x & y & z & -> & A & B & D & E & ->). exists a, b, d, e. split; [reflexivity|].
  apply hex_iff in A, B, D, E. unfold json_code. rewrite A, B, D, E. f_equal. lia.
Qed.

Lemma unescape_iff e c : json_unescape e = Some c <->
  In (e, c) [(34, 34); (92, 92); (47, 47); (98, 8); (102, 12); (110, 10); (114, 13); (116, 9)].
Proof.
  unfold json_unescape. cbn [In]. split.
  - repeat match goal with |- (if ?e =? ?k then _ else _) = _ -> _ => destruct (N.eqb_spec e k) as [->|]; [intros [= <-]; tauto|] end.
    discriminate.
  - intros H. repeat (destruct H as [H|H]; [injection H as <- <-; reflexivity|]). destruct H.
Qed.

Lemma second_half_some s d : second_half s = Some d ->
  exists w x y z r, s = 92 :: 117 :: w :: x :: y :: z :: r /\ json_code w x y z = Some d /\ low_half d.
Proof.
  unfold second_half. destruct s as [|b [|u [|w [|x [|y [|z r]]]]]]; try discriminate.
  destruct ((b =? 92) && (u =? 117)) eqn:H; [|discriminate]. destruct (json_code w x y z) as [d'|] eqn:C; [|discriminate].
  destruct (low_surrogate d') eqn:L; [|discriminate]. intros [= <-]. exists w, x, y, z, r.
  assert (b = 92 /\ u = 117) as [-> ->] by lia. repeat split; [exact C| |]; unfold low_surrogate in L; lia.
Qed.
Lemma second_half_coded s d v r : s = v ++ r -> coded d v -> low_half d -> second_half s = Some d.
Proof.
  intros -> C L. destruct (coded_code _ _ C) as (a & b & x & e & -> & H). cbn [app second_half].
  replace ((92 =? 92) && (117 =? 117)) with true by reflexivity. rewrite H.
  replace (low_surrogate d) with true; [reflexivity|]. unfold low_surrogate, low_half in *. lia.
Qed.

Lemma chars_code pending a b d e c s : json_code a b d e = Some c ->
  json_chars pending (92 :: 117 :: a :: b :: d :: e :: s)
  = match pending with
    | Some h => match json_chars None s with
                | Some (t, r) => Some (65536 + (h - 55296) * 1024 + (c - 56320) :: t, r)
                | None => None
                end
    | None => match (if high_surrogate c then second_half s else None) with
              | Some _ => json_chars (Some c) s
              | None => match json_chars None s with Some (t, r) => Some (c :: t, r) | None => None end
              end
    end.
Proof. intros H. cbn [json_chars]. replace (92 =? 34) with false by reflexivity. replace (92 =? 92) with true by reflexivity.
  replace (117 =? 117) with true by reflexivity. rewrite H. reflexivity. Qed.

Lemma quoted_read k q : quoted k q -> forall r, json_chars None (q ++ 34 :: r) = Some (k, r).
Proof.
  induction 1 as [|c s t H1 H2 H3 _ IH|e c s t H1 _ IH|c u s t C N Q IH|h l u v s t Ch Cl Hh Hl Q IH]; intros r.
  - reflexivity.
  - cbn [app json_chars]. replace (c =? 34) with false by (symmetry; lia). replace (c =? 92) with false by (symmetry; lia).
    replace (c <? 32) with false by (symmetry; lia). now rewrite IH.
  - cbn [app]. apply unescape_iff in H1. rewrite (json_char_short c e _ H1), IH; [reflexivity|].
    intros ->. vm_compute in H1. discriminate.
  - destruct (coded_code _ _ C) as (a & b & d & e & -> & J). cbn [app]. rewrite (chars_code _ _ _ _ _ _ _ J).
    assert (S : (if high_surrogate c then second_half (t ++ 34 :: r) else None) = None).
    { destruct (high_surrogate c) eqn:H; [|reflexivity]. destruct (second_half (t ++ 34 :: r)) as [x|] eqn:S; [|reflexivity].
      exfalso. apply second_half_some in S as (w & x1 & y & z & r1 & E1 & J1 & L1).
      assert (Hh : high_half c) by (unfold high_surrogate in H; unfold high_half; lia).
      specialize (N Hh x [92; 117; w; x1; y; z]). apply code_coded in J1 as C1.
      (* the quote is no part of an escaped character *)
      assert (HX : forall c n, XmlText.hex_digit c = Some n -> c <> 34) by (intros c0 n0 HH; apply hex_iff in HH; unfold hexadecimal in HH; lia).
      assert (W : w <> 34 /\ x1 <> 34 /\ y <> 34 /\ z <> 34).
      { unfold json_code in J1. destruct (XmlText.hex_digit w) eqn:A1; [|discriminate]. destruct (XmlText.hex_digit x1) eqn:A2; [|discriminate].
        destruct (XmlText.hex_digit y) eqn:A3; [|discriminate]. destruct (XmlText.hex_digit z) eqn:A4; [|discriminate]. eauto 10. }
      destruct t as [|t0 [|t1 [|t2 [|t3 [|t4 [|t5 t]]]]]]; cbn [app] in E1; try (injection E1; intros; subst; lia).
      injection E1; intros; subst. exact (N t C1 L1 eq_refl). }
    rewrite S, IH. reflexivity.
  - destruct (coded_code _ _ Ch) as (a & b & d & e & -> & J). rewrite <- !app_assoc. cbn [app]. rewrite (chars_code _ _ _ _ _ _ _ J).
    replace (high_surrogate h) with true by (unfold high_surrogate; unfold high_half in Hh; lia).
    rewrite (second_half_coded _ l v (t ++ 34 :: r) eq_refl Cl Hl).
    destruct (coded_code _ _ Cl) as (a' & b' & d' & e' & -> & J'). cbn [app]. rewrite (chars_code _ _ _ _ _ _ _ J'), IH. reflexivity.
Qed.

Lemma read_quoted s : forall k r, json_chars None s = Some (k, r) -> exists q, s = q ++ 34 :: r /\ quoted k q.
Proof.
  induction s as [s IH] using (well_founded_induction (well_founded_ltof _ (@length N))). unfold ltof in IH.
  intros k r H. destruct s as [|c s]; [discriminate|].
  destruct (N.eq_dec c 34) as [->|H34]; [injection H as <- <-; exists []; split; [reflexivity|constructor]|].
  destruct (N.eq_dec c 92) as [->|H92].
  - destruct s as [|e s1]; [discriminate|]. destruct (N.eq_dec e 117) as [->|H117].
    + destruct s1 as [|w [|x [|y [|z s2]]]]; try discriminate H. destruct (json_code w x y z) as [d|] eqn:J;
        [|cbn [json_chars] in H; replace (92 =? 34) with false in H by reflexivity; replace (92 =? 92) with true in H by reflexivity;
          replace (117 =? 117) with true in H by reflexivity; rewrite J in H; discriminate].
      rewrite (chars_code _ _ _ _ _ _ _ J) in H. assert (C := code_coded _ _ _ _ _ J).
      destruct (if high_surrogate d then second_half s2 else None) as [l|] eqn:S.
      * destruct (high_surrogate d) eqn:Hh; [|discriminate].
        destruct (second_half_some _ _ S) as (w' & x' & y' & z' & s3 & -> & J' & L).
        rewrite (chars_code _ _ _ _ _ _ _ J') in H. destruct (json_chars None s3) as [[t r']|] eqn:T; [|discriminate].
        apply some_inj, pair_equal_spec in H as [<- <-].
        destruct (IH s3 ltac:(cbn [length]; lia) _ _ T) as (q & -> & Q).
        exists ([92; 117; w; x; y; z] ++ [92; 117; w'; x'; y'; z'] ++ q). split; [reflexivity|].
        apply q_pair; auto using code_coded. unfold high_surrogate in Hh. unfold high_half. lia.
      * destruct (json_chars None s2) as [[t r']|] eqn:T; [|discriminate].
        apply some_inj, pair_equal_spec in H as [<- <-].
        destruct (IH s2 ltac:(cbn [length]; lia) _ _ T) as (q & -> & Q).
        exists ([92; 117; w; x; y; z] ++ q). split; [reflexivity|]. apply q_code; [exact C| |exact Q].
        intros Hh d' v r1 C' L' ->. replace (high_surrogate d) with true in S by (unfold high_surrogate; unfold high_half in Hh; lia).
        rewrite <- app_assoc in S. rewrite (second_half_coded _ d' v _ eq_refl C' L') in S. discriminate.
    + cbn [json_chars] in H. replace (92 =? 34) with false in H by reflexivity. replace (92 =? 92) with true in H by reflexivity.
      replace (e =? 117) with false in H by (symmetry; lia).
      destruct (json_unescape e) as [d|] eqn:U; [|discriminate]. destruct (json_chars None s1) as [[t r']|] eqn:T; [|discriminate].
      injection H as <- <-. destruct (IH s1 ltac:(cbn [length]; lia) _ _ T) as (q & -> & Q).
      exists (92 :: e :: q). split; [reflexivity|]. apply q_escape; [now apply unescape_iff|exact Q].
  - cbn [json_chars] in H. replace (c =? 34) with false in H by (symmetry; lia). replace (c =? 92) with false in H by (symmetry; lia).
    destruct (c <? 32) eqn:L; [discriminate|]. destruct (json_chars None s) as [[t r']|] eqn:T; [|discriminate].
    injection H as <- <-. destruct (IH s ltac:(cbn [length]; lia) _ _ T) as (q & -> & Q).
    exists (c :: q). split; [reflexivity|]. constructor; [lia|assumption|assumption|exact Q].
Qed.

(** ** White space *)

Lemma white_json c : json_white c = true <-> In c [32; 9; 10; 13].
Proof. unfold json_white. cbn [In]. lia. Qed.
Lemma white_skip w s : white w -> skip_white (w ++ s) = skip_white s.
Proof.
  induction w as [|c w IH]; intros W; [reflexivity|]. unfold skip_white in *. cbn [app span].
  assert (J : json_white c = true) by (apply white_json, W; now left). rewrite J. cbn [snd]. apply IH. intros d D. apply W. now right.
Qed.
Lemma skip_split s : exists w, white w /\ s = w ++ skip_white s.
Proof.
  induction s as [|c s (w & W & H)]; [exists []; split; [intros ? []|reflexivity]|]. unfold skip_white in *. cbn [span].
  destruct (json_white c) eqn:J.
  - exists (c :: w). split; [intros d [<-|D]; [now apply white_json|now apply W]|]. cbn [snd app]. now rewrite <- H.
  - exists []. split; [intros ? []|reflexivity].
Qed.
Lemma white_app a b : white a -> white b -> white (a ++ b).
Proof. intros A B c I. apply in_app_or in I as [I|I]; auto. Qed.
Lemma white_nil : white [].
Proof. intros ? []. Qed.
Lemma white_stops w c r : white w -> ~ (48 <= c <= 57) -> c <> 46 -> c <> 101 -> c <> 69 -> stops (w ++ c :: r).
Proof.
  intros W H1 H2 H3 H4 d r' E. destruct w as [|x w]; cbn [app] in E; [injection E as <- _; auto|].
  injection E as <- _. assert (I := W x (or_introl eq_refl)). cbn [In] in I. lia.
Qed.
Lemma white_stops_end w : white w -> stops w.
Proof.
  intros W d r' ->. assert (I := W d (or_introl eq_refl)). cbn [In] in I. lia.
Qed.

(** ** Everything in the grammar is read *)

Scheme jvalue_i := Induction for jvalue Sort Prop
  with jitems_i := Induction for jitems Sort Prop
  with jmembers_i := Induction for jmembers Sort Prop
  with jmember_i := Induction for jmember Sort Prop.

Definition good_value (E : env) (v : val) (t : str) : Prop :=
  (exists c x, t = c :: x /\ json_white c = false /\ c <> 93 /\ c <> 125)
  /\ forall n r, stops r -> (2 * length t <= n)%nat -> json_value E n (t ++ r) = Ok (v, r).
Definition good_items (E : env) (l : list val) (t : str) : Prop :=
  (forall s, exists c x, skip_white (t ++ s) = c :: x /\ c <> 93)
  /\ forall n r, (2 * length t < n)%nat -> json_items E n (skip_white (t ++ 93 :: r)) = Ok (l, r).
Definition good_members (E : env) (m : list (str * val)) (t : str) : Prop :=
  (forall s, exists x, skip_white (t ++ s) = 34 :: x)
  /\ forall n acc r, (2 * length t < n)%nat ->
       json_members E n acc (skip_white (t ++ 125 :: r)) = Ok (fold_left (fun d kv => sset (fst kv) (snd kv) d) m acc, r).
Definition good_member (E : env) (k : str) (v : val) (t : str) : Prop :=
  (forall s, exists x, skip_white (t ++ s) = 34 :: x)
  /\ forall n acc d r, (2 * length t <= n)%nat -> d = 125 \/ d = 44 ->
       json_members E (S n) acc (skip_white (t ++ d :: r))
       = if d =? 125 then Ok (sset k v acc, r) else json_members E n (sset k v acc) (skip_white r).

Lemma word_good E v t c x : t = c :: x -> json_white c = false -> c <> 93 -> c <> 125 -> c <> 34 -> c <> 91 -> c <> 123 ->
  (forall r, json_word E (t ++ r) = Ok (v, r)) -> good_value E v t.
Proof.
  intros -> W H1 H2 H3 H4 H5 R. split; [exists c, x; auto|]. intros n r _ N. destruct n as [|n]; [cbn [length] in N; lia|].
  specialize (R r). cbn [app] in *. cbn [json_value].
  replace (c =? 34) with false by (symmetry; lia). replace (c =? 91) with false by (symmetry; lia).
  replace (c =? 123) with false by (symmetry; lia). exact R.
Qed.

Lemma digits_whole ds : ds <> [] -> (forall d, In d ds -> d < 10) -> ds = [0] \/ hd 0 ds <> 0 ->
  whole_ok (map (fun d => 48 + d) ds).
Proof.
  intros N D [->|Z]; [now left|]. right. split.
  - split; [now destruct ds|]. intros c I. apply in_map_iff in I as (d & <- & I). apply D in I. lia.
  - intros r H. destruct ds as [|d ds]; [easy|]. cbn [map hd] in H, Z. assert (48 + d = 48) by congruence. lia.
Qed.
Lemma int_good E sg ds z : sg = [] \/ sg = $"-" -> ds <> [] -> (forall d, In d ds -> d < 10) -> ds = [0] \/ hd 0 ds <> 0 ->
  int_text (sg ++ map (fun d => 48 + d) ds) z -> good_value E (VInt z) (sg ++ map (fun d => 48 + d) ds).
Proof.
  intros Hsg N D Z T. assert (W := digits_whole ds N D Z). set (ip := map (fun d => 48 + d) ds) in *. split.
  - rewrite <- (app_nil_r ip). apply number_start; assumption.
  - intros n r Hr Hn. destruct n as [|n].
    { destruct (whole_first ip W) as (c & x & E1 & _). rewrite E1, app_length in Hn. cbn [length] in Hn. lia. }
    rewrite <- app_assoc, value_number by assumption.
    change (sg ++ ip ++ r) with (sg ++ ip ++ [] ++ [] ++ r). rewrite number_scan; try assumption; try (left; reflexivity).
    cbn [app]. rewrite (parse_int_text (e_udigit E) _ z T). reflexivity.
Qed.
Lemma float_good E f t : float_syntax t -> parse_float (e_udigit E) t = Some f -> good_value E (VFloat f) t.
Proof.
  intros (sg & ip & fr & ex & -> & Hsg & Hip & Hfr & Hex & Hne) P. split; [apply number_start; assumption|].
  intros n r Hr Hn. destruct n as [|n].
  { destruct (whole_first ip Hip) as (c & x & E1 & _). rewrite E1, !app_length in Hn. cbn [length] in Hn. lia. }
  rewrite <- !app_assoc, value_number by assumption. rewrite number_scan by assumption.
  destruct (fr ++ ex) eqn:F; [contradiction|]. rewrite P. reflexivity.
Qed.

Lemma items_unfold E n s : json_items E (S n) s =
  (do x <- json_value E n s;
   match skip_white (snd x) with
   | [] => json_bad
   | d :: r => if d =? 93 then Ok ([fst x], r)
               else if d =? 44 then do y <- json_items E n (skip_white r); Ok (fst x :: fst y, snd y)
               else json_bad
   end).
Proof. reflexivity. Qed.
Lemma members_unfold E n acc s : json_members E (S n) acc s =
  match s with
  | [] => json_bad
  | q :: s1 =>
      if q =? 34 then
        match json_chars None s1 with
        | None => json_bad
        | Some (k, s2) =>
            match skip_white s2 with
            | [] => json_bad
            | p :: s3 =>
                if p =? 58 then
                  do x <- json_value E n (skip_white s3);
                  let acc' := sset k (fst x) acc in
                  match skip_white (snd x) with
                  | [] => json_bad
                  | d :: r => if d =? 125 then Ok (acc', r)
                              else if d =? 44 then json_members E n acc' (skip_white r)
                              else json_bad
                  end
                else json_bad
            end
        end
      else json_bad
  end.
Proof. reflexivity. Qed.

Combined Scheme json_ind from jvalue_i, jitems_i, jmembers_i, jmember_i.

Lemma good_around E v w1 t w2 : white w1 -> good_value E v t -> white w2 ->
  (forall s, exists c x, skip_white (w1 ++ t ++ w2 ++ s) = c :: x /\ c <> 93 /\ c <> 125)
  /\ forall n d r, ~ (48 <= d <= 57) -> d <> 46 -> d <> 101 -> d <> 69 -> (2 * length t <= n)%nat ->
       json_value E n (skip_white (w1 ++ t ++ w2 ++ d :: r)) = Ok (v, w2 ++ d :: r).
Proof.
  intros W1 [(c & x & -> & J & H1 & H2) R] W2. split.
  - intros s. exists c, (x ++ w2 ++ s). rewrite white_skip by exact W1. cbn [app]. rewrite skip_white_start by exact J. auto.
  - intros n d r D1 D2 D3 D4 N. rewrite white_skip by exact W1. cbn [app]. rewrite skip_white_start by exact J.
    change (c :: x ++ w2 ++ d :: r) with ((c :: x) ++ w2 ++ d :: r). apply R; [apply white_stops; assumption|exact N].
Qed.
Lemma white_then w d r : white w -> json_white d = false -> skip_white (w ++ d :: r) = d :: r.
Proof. intros. rewrite white_skip, skip_white_start; auto. Qed.

Lemma good_all E :
  (forall v t, jvalue E v t -> good_value E v t)
  /\ (forall l t, jitems E l t -> good_items E l t)
  /\ (forall m t, jmembers E m t -> good_members E m t)
  /\ (forall k v t, jmember E k v t -> good_member E k v t).
Proof.
  apply json_ind.
  - eapply word_good; [reflexivity|reflexivity|discriminate..|]. intros r. reflexivity.
  - eapply word_good; [reflexivity|reflexivity|discriminate..|]. intros r. reflexivity.
  - eapply word_good; [reflexivity|reflexivity|discriminate..|]. intros r. reflexivity.
  - eapply word_good; [reflexivity|reflexivity|discriminate..|]. intros r. reflexivity.
  - eapply word_good; [reflexivity|reflexivity|discriminate..|]. intros r. reflexivity.
  - eapply word_good; [reflexivity|reflexivity|discriminate..|]. intros r. reflexivity.
  - intros ds N D Z. apply (int_good E [] ds); auto. exists [], [], ds, []. rewrite app_nil_r. repeat split; auto. now apply Forall_forall.
  - intros ds N D Z. apply (int_good E $"-" ds); auto. exists [], $"-", ds, []. rewrite app_nil_r. repeat split; auto. now apply Forall_forall.
  - intros f t S P. now apply float_good.
  - intros s t Q. split; [exists 34, (t ++ [34]); repeat split; discriminate|]. intros n r _ N. destruct n as [|n]; [cbn [length app] in N; lia|].
    cbn [app]. rewrite <- app_assoc. cbn [app json_value]. replace (34 =? 34) with true by reflexivity. now rewrite (quoted_read s t).
  - intros w W. split; [exists 91, (w ++ [93]); repeat split; discriminate|]. intros n r _ N.
    change ($"[") with [91] in *. change ($"]") with [93] in *. destruct n as [|n]; [cbn [length app] in N; lia|]. cbn [app]. rewrite <- app_assoc, json_value_array. cbn [app].
    rewrite white_then by (assumption || reflexivity). reflexivity.
  - intros l t _ [F R]. split; [exists 91, (t ++ [93]); repeat split; discriminate|]. intros n r _ N.
    change ($"[") with [91] in *. change ($"]") with [93] in *. cbn [app length] in *. rewrite app_length in N. cbn [length] in N.
    destruct n as [|n]; [lia|]. rewrite <- app_assoc, json_value_array. cbn [app].
    destruct (F (93 :: r)) as (c & x & X & Y). specialize (R n r ltac:(lia)). rewrite X in *.
    replace (c =? 93) with false by (symmetry; lia). rewrite R. reflexivity.
  - intros w W. split; [exists 123, (w ++ [125]); repeat split; discriminate|]. intros n r _ N.
    change ($"{") with [123] in *. change ($"}") with [125] in *. destruct n as [|n]; [cbn [length app] in N; lia|]. cbn [app]. rewrite <- app_assoc, json_value_object. cbn [app].
    rewrite white_then by (assumption || reflexivity). reflexivity.
  - intros m t _ [F R]. split; [exists 123, (t ++ [125]); repeat split; discriminate|]. intros n r _ N.
    change ($"{") with [123] in *. change ($"}") with [125] in *. cbn [app length] in *. rewrite app_length in N. cbn [length] in N.
    destruct n as [|n]; [lia|]. rewrite <- app_assoc, json_value_object. cbn [app].
    destruct (F (125 :: r)) as (x & X). specialize (R n [] r ltac:(lia)). rewrite X in *.
    replace (34 =? 125) with false by reflexivity. rewrite R. reflexivity.
  - intros v w1 t w2 W1 _ V W2. destruct (good_around E v w1 t w2 W1 V W2) as [F R]. split.
    + intros s. destruct (F s) as (c & x & X & Y & _). rewrite <- !app_assoc. eauto.
    + intros n r N. destruct n as [|n]; [lia|]. rewrite items_unfold, <- !app_assoc. rewrite !app_length in N.
      rewrite R by lia. cbn [bind snd fst]. rewrite white_then by (assumption || reflexivity). reflexivity.
  - intros v w1 t w2 l r0 W1 _ V W2 _ [_ IH]. destruct (good_around E v w1 t w2 W1 V W2) as [F R]. split.
    + intros s. destruct (F ($"," ++ r0 ++ s)) as (c & x & X & Y & _). rewrite <- !app_assoc. eauto.
    + intros n r N. destruct n as [|n]; [lia|]. rewrite items_unfold, <- !app_assoc. rewrite !app_length in N.
      change ($",") with [44] in *. cbn [app length] in *. rewrite R by lia. cbn [bind snd fst]. rewrite white_then by (assumption || reflexivity).
      replace (44 =? 93) with false by reflexivity. replace (44 =? 44) with true by reflexivity.
      rewrite IH by lia. reflexivity.
  - intros k v t _ [F R]. split; [exact F|]. intros n acc r N. destruct n as [|n]; [lia|].
    rewrite R by (auto; lia). reflexivity.
  - intros k v t m r0 _ [F R] _ [_ IH]. split.
    + intros s. rewrite <- app_assoc. apply F.
    + intros n acc r N. destruct n as [|n]; [lia|]. rewrite <- !app_assoc. rewrite !app_length in N.
      change ($",") with [44] in *. cbn [app length] in *. rewrite R by (auto; lia). replace (44 =? 125) with false by reflexivity.
      cbn [fold_left fst snd]. apply IH. lia.
  - intros k v w1 q w2 w3 t w4 W1 Q W2 W3 _ V W4.
    destruct (good_around E v w3 t w4 W3 V W4) as [_ R]. split.
    + intros s. rewrite <- !app_assoc. rewrite white_skip by exact W1. cbn [app]. rewrite skip_white_start by reflexivity. eauto.
    + intros n acc d r N D. rewrite <- !app_assoc. rewrite white_skip by exact W1. cbn [app]. rewrite skip_white_start by reflexivity.
      rewrite members_unfold. replace (34 =? 34) with true by reflexivity.
      change ($":") with [58] in *. rewrite <- ?app_assoc. cbn [app] in *. rewrite (quoted_read k q Q). rewrite (white_then w2 58) by (assumption || reflexivity).
      replace (58 =? 58) with true by reflexivity.
      assert (L : (2 * length t <= n)%nat) by (repeat (rewrite app_length in N || cbn [length] in N); lia).
      rewrite R by (destruct D as [-> | ->]; lia).
      cbn [bind snd fst]. rewrite white_then; [|exact W4|destruct D as [-> | ->]; reflexivity].
      destruct D as [-> | ->]; reflexivity.
Qed.

(** ** Everything that is read is in the grammar *)

Lemma span_forall p s a b : span p s = (a, b) -> Forall (fun c => p c = true) a.
Proof.
  revert a b. induction s as [|c s IH]; cbn [span]; intros a b; [intros [= <- <-]; constructor|].
  destruct (p c) eqn:P; [|intros [= <- <-]; constructor]. intros [= <- <-]. constructor; [exact P|]. apply (IH _ (snd (span p s))), surjective_pairing.
Qed.
Lemma fraction_shape s a b : json_fraction s = (a, b) -> fraction_ok a.
Proof.
  unfold json_fraction. destruct s as [|c s]; [intros [= <- <-]; now left|]. destruct (N.eqb_spec c 46) as [->|]; [|intros [= <- <-]; now left].
  destruct (span is_digit s) as [ds r] eqn:H. destruct ds as [|d ds]; intros [= <- <-]; [now left|]. right. exists (d :: ds).
  split; [reflexivity|]. split; [discriminate|]. intros c I. apply is_digit_iff. revert I. revert c. apply Forall_forall, (span_forall _ _ _ _ H).
Qed.
Lemma exponent_shape s a b : json_exponent s = (a, b) -> exponent_ok a.
Proof.
  unfold json_exponent. destruct s as [|c s]; [intros [= <- <-]; now left|]. destruct ((c =? 101) || (c =? 69)) eqn:C; [|intros [= <- <-]; now left].
  assert (CE : [c] = $"e" \/ [c] = $"E") by (apply orb_true_iff in C as [C|C]; apply N.eqb_eq in C; subst; auto).
  destruct s as [|d s]; [cbn [span]; intros [= <- <-]; now left|].
  destruct ((d =? 45) || (d =? 43)) eqn:D.
  - assert (DE : [d] = $"-" \/ [d] = $"+") by (apply orb_true_iff in D as [D|D]; apply N.eqb_eq in D; subst; auto).
    destruct (span is_digit s) as [ds r] eqn:H. destruct ds as [|x ds]; intros [= <- <-]; [now left|]. right. exists [c], [d], (x :: ds).
    split; [reflexivity|]. split; [exact CE|]. split; [auto|]. split; [discriminate|]. intros y I. apply is_digit_iff.
    revert I. revert y. apply Forall_forall, (span_forall _ _ _ _ H).
  - destruct (span is_digit (d :: s)) as [ds r] eqn:H. destruct ds as [|x ds]; intros [= <- <-]; [now left|]. right. exists [c], [], (x :: ds).
    split; [reflexivity|]. split; [exact CE|]. split; [auto|]. split; [discriminate|]. intros y I. apply is_digit_iff.
    revert I. revert y. apply Forall_forall, (span_forall _ _ _ _ H).
Qed.
Lemma whole_shape s a b : json_whole s = (a, b) -> a <> [] -> whole_ok a /\ s = a ++ b.
Proof.
  unfold json_whole. destruct s as [|c s]; [now intros [= <- <-]|]. destruct (N.eqb_spec c 48) as [->|N].
  - intros [= <- <-] _. split; [now left|reflexivity].
  - destruct (span is_digit (c :: s)) as [ds r] eqn:H. intros [= <- <-] NE. split; [|now apply span_split in H]. right. split.
    + split; [exact NE|]. intros y I. apply is_digit_iff. revert I. revert y. apply Forall_forall, (span_forall _ _ _ _ H).
    + intros r' ->. apply span_split in H. injection H as -> _. contradiction.
Qed.
Lemma whole_digits ip : whole_ok ip -> exists ds, ip = map (fun d => 48 + d) ds /\ ds <> [] /\ (forall d, In d ds -> d < 10)
  /\ (ds = [0] \/ hd 0 ds <> 0).
Proof.
  intros [->|[[N D] Z]]; [exists [0]; repeat split; auto; [discriminate|intros d [<-|[]]; lia]|].
  exists (map (fun c => c - 48) ip). split; [|split; [now destruct ip|split]].
  - rewrite map_map. rewrite <- (map_id ip) at 1. apply map_ext_in. intros c I. apply D in I. lia.
  - intros d I. apply in_map_iff in I as (c & <- & I). apply D in I. lia.
  - right. destruct ip as [|c ip]; [contradiction|]. cbn [map hd]. assert (C := D c (or_introl eq_refl)).
    intros H. apply (Z ip). f_equal. lia.
Qed.
Lemma number_sound E s v r : json_number E s = Ok (v, r) -> exists t, s = t ++ r /\ jvalue E v t.
Proof.
  unfold json_number. destruct (json_minus s) as [sg s1] eqn:H1. destruct (json_whole s1) as [ip s2] eqn:H2.
  assert (M : (sg = [] \/ sg = $"-") /\ s = sg ++ s1).
  { unfold json_minus in H1. destruct s as [|c s]; [injection H1 as <- <-; auto|]. destruct (N.eqb_spec c 45) as [->|]; injection H1 as <- <-; auto. }
  destruct M as [Hsg ->]. assert (NE : ip = [] \/ ip <> []) by (destruct ip; [now left|right; discriminate]).
  destruct NE as [->|NE]; [discriminate|]. destruct (whole_shape _ _ _ H2 NE) as [W ->].
  destruct (json_fraction s2) as [fr s3] eqn:H3. destruct (json_exponent s3) as [ex s4] eqn:H4.
  assert (F := fraction_shape _ _ _ H3). assert (X := exponent_shape _ _ _ H4). apply fraction_split in H3. apply exponent_split in H4. subst s2 s3.
  replace (match ip with [] => json_bad | _ :: _ => match fr ++ ex with
      | [] => match parse_int (e_udigit E) (sg ++ ip) with Some z => Ok (VInt z, s4) | None => json_bad end
      | _ :: _ => match parse_float (e_udigit E) (sg ++ ip ++ fr ++ ex) with Some f => Ok (VFloat f, s4) | None => json_bad end end end)
    with (match fr ++ ex with
      | [] => match parse_int (e_udigit E) (sg ++ ip) with Some z => Ok (VInt z, s4) | None => json_bad end
      | _ :: _ => match parse_float (e_udigit E) (sg ++ ip ++ fr ++ ex) with Some f => Ok (VFloat f, s4) | None => json_bad end end)
    by (destruct ip; [contradiction|reflexivity]).
  destruct (fr ++ ex) as [|y l] eqn:FX.
  - apply app_eq_nil in FX as [-> ->]. destruct (whole_digits ip W) as (ds & -> & N & D & Z).
    assert (Z0 : exists z, int_text (sg ++ map (fun d => 48 + d) ds) z /\ jvalue E (VInt z) (sg ++ map (fun d => 48 + d) ds)).
    { destruct Hsg as [-> | ->].
      - exists (place_value ds). split; [|now constructor]. exists [], [], ds, []. rewrite app_nil_r. repeat split; auto. now apply Forall_forall.
      - exists (- place_value ds)%Z. split; [|now constructor]. exists [], $"-", ds, []. rewrite app_nil_r. repeat split; auto. now apply Forall_forall. }
    destruct Z0 as (z & T & J). rewrite (parse_int_text (e_udigit E) _ _ T). intros [= <- <-].
    eexists. split; [|exact J]. cbn [app]. now rewrite <- app_assoc.
  - rewrite <- FX. destruct (parse_float (e_udigit E) (sg ++ ip ++ fr ++ ex)) as [f|] eqn:P; [|discriminate].
    intros [= <- <-]. exists (sg ++ ip ++ fr ++ ex). split; [now rewrite <- !app_assoc|]. constructor; [|exact P].
    exists sg, ip, fr, ex. repeat split; auto. rewrite FX. discriminate.
Qed.
Lemma word_sound E s v r : json_word E s = Ok (v, r) -> exists t, s = t ++ r /\ jvalue E v t.
Proof.
  unfold json_word.
  repeat match goal with
         | |- (if starts_with ?p s then Ok (_, skipn ?k s) else _) = _ -> _ =>
             let H := fresh "H" in destruct (starts_with p s) eqn:H;
             [apply starts_with_split in H; intros [= <- <-]; exists p; split; [exact H|constructor]|]
         end.
  apply number_sound.
Qed.

Lemma jitems_white E l t w : white w -> jitems E l t -> jitems E l (w ++ t).
Proof.
  intros W H. destruct H as [v w1 t w2 W1 V W2|v w1 t w2 l r W1 V W2 J]; rewrite app_assoc; constructor; auto using white_app.
Qed.
Lemma jmembers_white E m t w : white w -> jmembers E m t -> jmembers E m (w ++ t).
Proof.
  intros W H. destruct H as [k v t M|k v t m r M J].
  - constructor. destruct M. rewrite app_assoc. constructor; auto using white_app.
  - rewrite app_assoc. constructor; [|exact J]. destruct M. rewrite app_assoc. constructor; auto using white_app.
Qed.

Lemma read_all E n :
  (forall s v r, json_value E n s = Ok (v, r) -> exists t, s = t ++ r /\ jvalue E v t)
  /\ (forall s l r, json_items E n s = Ok (l, r) -> exists t, s = t ++ 93 :: r /\ jitems E l t)
  /\ (forall s acc d r, json_members E n acc s = Ok (d, r) ->
        exists m t, s = t ++ 125 :: r /\ jmembers E m t /\ d = fold_left (fun d kv => sset (fst kv) (snd kv) d) m acc).
Proof.
  induction n as [|n (IHv & IHi & IHm)]; [repeat split; discriminate|]. repeat split.
  - intros s v r. destruct s as [|c s]; [discriminate|]. destruct (N.eq_dec c 91) as [->|H91]; [|destruct (N.eq_dec c 123) as [->|H123]].
    + rewrite json_value_array. destruct (skip_split s) as (w & W & S). destruct (skip_white s) as [|d s1]; [discriminate|]. subst s.
      destruct (N.eqb_spec d 93) as [->|].
      * intros [= <- <-]. exists ($"[" ++ w ++ $"]"). split; [cbn; now rewrite <- app_assoc|now constructor].
      * destruct (json_items E n (d :: s1)) as [[l r']|] eqn:I; [|discriminate]. cbn [bind fst snd]. intros [= <- <-].
        destruct (IHi _ _ _ I) as (t & T & J). exists ($"[" ++ (w ++ t) ++ $"]"). rewrite T. split; [cbn; now rewrite <- !app_assoc|].
        apply jv_list, jitems_white; assumption.
    + rewrite json_value_object. destruct (skip_split s) as (w & W & S). destruct (skip_white s) as [|d s1]; [discriminate|]. subst s.
      destruct (N.eqb_spec d 125) as [->|].
      * intros [= <- <-]. exists ($"{" ++ w ++ $"}"). split; [cbn; now rewrite <- app_assoc|now constructor].
      * destruct (json_members E n [] (d :: s1)) as [[l r']|] eqn:I; [|discriminate]. cbn [bind fst snd]. intros [= <- <-].
        destruct (IHm _ _ _ _ I) as (m & t & T & J & ->). exists ($"{" ++ (w ++ t) ++ $"}"). rewrite T. split; [cbn; now rewrite <- !app_assoc|].
        apply jv_dict, jmembers_white; assumption.
    + cbn [json_value]. replace (c =? 91) with false by (symmetry; lia). replace (c =? 123) with false by (symmetry; lia).
      destruct (N.eqb_spec c 34) as [->|]; [|apply word_sound]. destruct (json_chars None s) as [[k r']|] eqn:C; [|discriminate].
      intros [= <- <-]. destruct (read_quoted _ _ _ C) as (q & -> & Q). exists ([34] ++ q ++ [34]).
      split; [cbn; now rewrite <- app_assoc|now constructor].
  - intros s l r. rewrite items_unfold. destruct (json_value E n s) as [[v s1]|] eqn:V; [|discriminate]. cbn [bind fst snd].
    destruct (IHv _ _ _ V) as (t & -> & J). destruct (skip_split s1) as (w & W & S). destruct (skip_white s1) as [|d s2]; [discriminate|]. subst s1.
    destruct (N.eqb_spec d 93) as [->|].
    + intros [= <- <-]. exists ([] ++ t ++ w). split; [cbn [app]; now rewrite <- app_assoc|]. constructor; auto using white_nil.
    + destruct (N.eqb_spec d 44) as [->|]; [|discriminate]. destruct (json_items E n (skip_white s2)) as [[l' r']|] eqn:I; [|discriminate].
      cbn [bind fst snd]. intros [= <- <-]. destruct (IHi _ _ _ I) as (t' & T & J'). destruct (skip_split s2) as (w' & W' & S'). rewrite T in S'. subst s2.
      exists ([] ++ t ++ w ++ $"," ++ w' ++ t'). split; [change ($",") with [44]; cbn [app]; rewrite <- !app_assoc; cbn [app]; now rewrite <- app_assoc|].
      constructor; auto using white_nil, jitems_white.
  - intros s acc dd r. rewrite members_unfold. destruct s as [|q s1]; [discriminate|]. destruct (N.eqb_spec q 34) as [->|]; [|discriminate].
    destruct (json_chars None s1) as [[k s2]|] eqn:C; [|discriminate]. destruct (read_quoted _ _ _ C) as (qt & -> & Q).
    destruct (skip_split s2) as (w2 & W2 & S). destruct (skip_white s2) as [|p s3]; [discriminate|]. subst s2.
    destruct (N.eqb_spec p 58) as [->|]; [|discriminate]. destruct (json_value E n (skip_white s3)) as [[v s4]|] eqn:V; [|discriminate].
    cbn [bind fst snd]. destruct (IHv _ _ _ V) as (t & T & J). destruct (skip_split s3) as (w3 & W3 & S3). rewrite T in S3. subst s3.
    destruct (skip_split s4) as (w4 & W4 & S4). destruct (skip_white s4) as [|d s5]; [discriminate|]. subst s4.
    assert (M : jmember E k v ([] ++ [34] ++ qt ++ [34] ++ w2 ++ $":" ++ w3 ++ t ++ w4)) by (constructor; auto using white_nil).
    set (mt := [] ++ [34] ++ qt ++ [34] ++ w2 ++ $":" ++ w3 ++ t ++ w4) in *.
    assert (EQ : forall y, 34 :: qt ++ 34 :: w2 ++ 58 :: w3 ++ t ++ w4 ++ y = mt ++ y).
    { intros y. subst mt. change ($":") with [58]. cbn [app]. repeat (rewrite <- app_assoc; cbn [app]). reflexivity. }
    rewrite EQ. destruct (N.eqb_spec d 125) as [->|].
    + intros [= <- <-]. exists [(k, v)], mt. split; [reflexivity|]. split; [now constructor|reflexivity].
    + destruct (N.eqb_spec d 44) as [->|]; [|discriminate]. intros H. destruct (IHm _ _ _ _ H) as (m & t' & T' & J' & ->).
      destruct (skip_split s5) as (w5 & W5 & S5). rewrite T' in S5. subst s5. exists ((k, v) :: m), (mt ++ $"," ++ w5 ++ t').
      split; [change ($",") with [44]; cbn [app]; repeat (rewrite <- app_assoc; cbn [app]); reflexivity|].
      split; [constructor; auto using jmembers_white|reflexivity].
Qed.

Lemma jvalue_first E v t : jvalue E v t -> exists c x, t = c :: x /\ json_white c = false /\ c <> 65279.
Proof.
  intros H. assert (G := proj1 (good_all E) _ _ H). destruct G as [(c & x & -> & W & _) R]. exists c, x. split; [reflexivity|]. split; [exact W|].
  intros ->. specialize (R (S (2 * length (65279%N :: x))) [] ltac:(intros ? ? [=]) (le_S _ _ (le_n _))). cbn in R. discriminate.
Qed.

(** @prop C74 Reading a text as JSON gives a value exactly when the text belongs to the grammar of JSON
    (RFC 8259, with the words NaN, Infinity and -Infinity) with that meaning: white space is blanks,
    tabs, line feeds and carriage returns, and nothing else is accepted; of members with equal names the
    last counts; escaped pairs of surrogates are one character. *)
Lemma json_grammar :
  forall E t v, json_unserialize E t = Ok v <-> jdocument E v t.
Proof.
  intros E t v. split.
  - intros H. assert (H' : (do x <- json_value E (S (2 * length t)) (skip_white t);
                            match skip_white (snd x) with [] => Ok (fst x) | _ => json_bad end) = Ok v).
    { unfold json_unserialize in H. destruct t as [|c t]; [exact H|].
      destruct (N.eq_dec c 65279) as [->|]; [discriminate|]. destruct c as [|p]; [exact H|].
      do 16 (destruct p as [p|p|]; try exact H). }
    clear H. destruct (json_value E (S (2 * length t)) (skip_white t)) as [[u s1]|] eqn:V; [|discriminate]. cbn [bind fst snd] in H'.
    destruct (skip_split s1) as (w2 & W2 & S). destruct (skip_white s1); [|discriminate]. injection H' as ->. rewrite app_nil_r in S. subst s1.
    destruct (proj1 (read_all E _) _ _ _ V) as (x & X & J). destruct (skip_split t) as (w1 & W1 & S). rewrite X in S.
    exists w1, x, w2. auto.
  - intros (w1 & u & w2 & -> & W1 & J & W2). destruct (jvalue_first _ _ _ J) as (c & x & -> & Wc & NB).
    assert (G := proj1 (good_all E) _ _ J). destruct G as [_ R].
    assert (H : (do y <- json_value E (S (2 * length (w1 ++ (c :: x) ++ w2))) (skip_white (w1 ++ (c :: x) ++ w2));
                 match skip_white (snd y) with [] => Ok (fst y) | _ => json_bad end) = Ok v).
    { rewrite white_skip by exact W1. cbn [app]. rewrite skip_white_start by exact Wc. change (c :: x ++ w2) with ((c :: x) ++ w2).
      rewrite R; [|now apply white_stops_end|rewrite !app_length; lia]. cbn [bind fst snd].
      rewrite <- (app_nil_r w2), white_skip by exact W2. reflexivity. }
    destruct w1 as [|d w1].
    + cbn [app] in *. unfold json_unserialize. destruct c as [|p]; [exact H|]. do 16 (destruct p as [p|p|]; try exact H).
    + assert (ND : d <> 65279) by (intros ->; assert (I := W1 _ (or_introl eq_refl)); cbn [In] in I; lia).
      cbn [app] in *. unfold json_unserialize. destruct d as [|p]; [exact H|]. do 16 (destruct p as [p|p|]; try exact H).
Qed.
(** @example
Example C74_grammar_example : json_unserialize env0 (13 :: $"{ ""a"" :[1,2], ""a"":-0 }") = Ok (VDict false [(VStr $"a", VInt 0)])
  /\ json_unserialize env0 (11 :: $"1") = py ValueError.
Proof. vm_compute. auto. Qed.
@end *)
