(** * XML texts are read exactly by their grammar (C64). *)
(* @imports Spec Demo XmlText XmlGramSpec *)
From Coq Require Import ZifyBool ZifyN ZifyNat.
From Verif Require Import PyBaseFacts Spec Demo XmlText XmlSpec XmlProofs XmlGramSpec.
Open Scope N_scope.

(** ** Characters *)

Lemma white_iff c : xml_white c = true <-> xwhite c.
Proof. unfold xml_white, xwhite. lia. Qed.
Lemma char_iff c : xml_char c = true <-> xchar c.
Proof. unfold xml_char, xchar. lia. Qed.
Lemma letter_iff c : name_start c = true <-> xletter c.
Proof. unfold name_start, xletter. lia. Qed.
Lemma tail_iff c : name_char c = true <-> (xletter c \/ 48 <= c <= 57 \/ c = 45 \/ c = 46).
Proof. unfold name_char, name_start, xletter. lia. Qed.
Lemma white_forall w : Forall xwhite w -> forall c, In c w -> xml_white c = true.
Proof. intros H c Hc. rewrite Forall_forall in H. apply white_iff, H, Hc. Qed.

Definition begins (p : N -> bool) (s : str) : Prop := exists c r, s = c :: r /\ p c = true.

Lemma span_split p s : s = fst (span p s) ++ snd (span p s) /\ Forall (fun c => p c = true) (fst (span p s))
  /\ forall c r, snd (span p s) = c :: r -> p c = false.
Proof.
  induction s as [|c s [H1 [H2 H3]]]; cbn [span]; [split; [reflexivity|]; split; [constructor|discriminate]|].
  destruct (p c) eqn:Hp; cbn [fst snd].
  - split; [cbn [app]; f_equal; exact H1|]. split; [constructor; assumption|exact H3].
  - split; [reflexivity|]. split; [constructor|]. intros d r X. assert (d = c) by congruence. subst d. exact Hp.
Qed.

(** ** References *)

Lemma digit_iff base ch d : base <= 16 -> (hex_digit ch = Some d /\ d < base) <-> xdigit base ch d.
Proof.
  intros Hb. unfold hex_digit, xdigit.
  destruct ((48 <=? ch) && (ch <=? 57)) eqn:H1; [split; [intros [[= <-] H]; lia|intros [H2 H3]; split; [f_equal|]; lia]|].
  destruct ((97 <=? ch) && (ch <=? 102)) eqn:H2; [split; [intros [[= <-] H]; lia|intros [H4 H3]; split; [f_equal|]; lia]|].
  destruct ((65 <=? ch) && (ch <=? 70)) eqn:H3; [split; [intros [[= <-] H]; lia|intros [H4 H5]; split; [f_equal|]; lia]|].
  split; [intros [[=] _]|]. lia.
Qed.

Lemma number_sound base s : base <= 16 -> forall s0 acc n, xnumeral base s0 acc -> read_number base acc s = Some n ->
  xnumeral base (s0 ++ s) n.
Proof.
  intros Hb. induction s as [|c s IH]; intros s0 acc n H0; cbn [read_number].
  - intros [= <-]. rewrite app_nil_r. exact H0.
  - destruct (hex_digit c) as [d|] eqn:Hd; [|discriminate]. destruct (N.ltb_spec d base); [|discriminate]. intros H1.
    change (c :: s) with ([c] ++ s). rewrite app_assoc. eapply IH; [|exact H1]. apply xnum_more; [exact H0|].
    apply digit_iff; auto.
Qed.

Lemma number_first base c s n : base <= 16 -> read_number base 0 (c :: s) = Some n -> xnumeral base (c :: s) n.
Proof.
  intros Hb. cbn [read_number]. destruct (hex_digit c) as [d|] eqn:Hd; [|discriminate].
  destruct (N.ltb_spec d base); [|discriminate]. intros H1. change (c :: s) with ([c] ++ s).
  eapply number_sound; [exact Hb| |exact H1]. replace (base * 0 + d) with d by lia. apply xnum_one, digit_iff; auto.
Qed.

Lemma number_complete base s n : base <= 16 -> xnumeral base s n -> forall t, read_number base 0 (s ++ t) = read_number base n t.
Proof.
  intros Hb. induction 1 as [ch d Hd|s n ch d Hs IH Hd]; intros t; apply (digit_iff base ch d Hb) in Hd; destruct Hd as [Hd Hl].
  - cbn [app read_number]. rewrite Hd. destruct (N.ltb_spec d base); [|lia]. f_equal. lia.
  - rewrite <- app_assoc, IH. cbn [app read_number]. rewrite Hd. destruct (N.ltb_spec d base); [reflexivity|lia].
Qed.

Lemma numeral_head base s n : base <= 16 -> xnumeral base s n ->
  (exists c r, s = c :: r) /\ Forall (fun c => c <> 120 /\ c <> 59 /\ c < 128) s.
Proof.
  intros Hb. induction 1 as [ch d Hd|s n ch d Hs [[c [r ->]] IH] Hd].
  - split; [eauto|]. constructor; [|constructor]. unfold xdigit in Hd. lia.
  - split; [cbn [app]; eauto|]. apply Forall_app. split; [exact IH|]. constructor; [|constructor]. unfold xdigit in Hd. lia.
Qed.

Lemma reference_sound n c : reference n = Some c -> xref n c.
Proof.
  unfold reference.
  destruct (str_eqb_spec n $"amp"); [subst; intros [= <-]; constructor|].
  destruct (str_eqb_spec n $"lt"); [subst; intros [= <-]; constructor|].
  destruct (str_eqb_spec n $"gt"); [subst; intros [= <-]; constructor|].
  destruct (str_eqb_spec n $"quot"); [subst; intros [= <-]; constructor|].
  destruct (str_eqb_spec n $"apos"); [subst; intros [= <-]; constructor|].
  match goal with |- match ?m with _ => _ end = _ -> _ => destruct m as [k|] eqn:Hm; [|discriminate] end.
  destruct (xml_char k) eqn:Hk; [|discriminate]. intros [= ->]. apply char_iff in Hk.
  destruct n as [|a n]; [discriminate|].
  assert (Ha : a = 35).
  { destruct (N.eq_dec a 35); [assumption|]. exfalso. destruct a as [|a]; [discriminate|].
    do 6 (destruct a as [a|a|]; try discriminate Hm; try congruence). }
  subst a. destruct n as [|b n]; [discriminate|].
  destruct (N.eq_dec b 120) as [->|Hb].
  - destruct n as [|d n]; [cbn in Hm; discriminate|]. apply (xref_hex (d :: n)); [|exact Hk]. apply number_first; [lia|exact Hm].
  - assert (Hm' : read_number 10 0 (b :: n) = Some c).
    { destruct b as [|b]; [exact Hm|]. do 7 (destruct b as [b|b|]; try exact Hm); try congruence. }
    apply (xref_dec (b :: n)); [|exact Hk]. apply number_first; [lia|exact Hm'].
Qed.

Lemma reference_complete n c : xref n c -> reference n = Some c.
Proof.
  destruct 1 as [| | | | |s c Hs Hc|s c Hs Hc]; try reflexivity; apply char_iff in Hc;
    [destruct (numeral_head 10 s c ltac:(lia) Hs) as [[h [r ->]] Hf]|destruct (numeral_head 16 s c ltac:(lia) Hs) as [[h [r ->]] Hf]].
  - unfold reference. change ($"#" ++ h :: r) with (35 :: h :: r).
    replace (str_eqb (35 :: h :: r) $"amp") with false by reflexivity.
    replace (str_eqb (35 :: h :: r) $"lt") with false by reflexivity.
    replace (str_eqb (35 :: h :: r) $"gt") with false by reflexivity.
    replace (str_eqb (35 :: h :: r) $"quot") with false by reflexivity.
    replace (str_eqb (35 :: h :: r) $"apos") with false by reflexivity.
    inversion Hf as [|? ? [Hh _] _]; subst.
    assert (Hm : read_number 10 0 (h :: r) = Some c).
    { rewrite <- (app_nil_r (h :: r)). rewrite (number_complete 10 _ _ ltac:(lia) Hs). reflexivity. }
    replace (match 35 :: h :: r with
           | 35 :: 120 :: d :: s' => read_number 16 0 (d :: s')
           | 35 :: d :: s' => read_number 10 0 (d :: s')
           | _ => None end) with (Some c); [rewrite Hc; reflexivity|].
    symmetry. destruct h as [|h]; [exact Hm|]. do 7 (destruct h as [h|h|]; try exact Hm); try congruence.
  - unfold reference. change ($"#x" ++ h :: r) with (35 :: 120 :: h :: r).
    replace (str_eqb (35 :: 120 :: h :: r) $"amp") with false by reflexivity.
    replace (str_eqb (35 :: 120 :: h :: r) $"lt") with false by reflexivity.
    replace (str_eqb (35 :: 120 :: h :: r) $"gt") with false by reflexivity.
    replace (str_eqb (35 :: 120 :: h :: r) $"quot") with false by reflexivity.
    replace (str_eqb (35 :: 120 :: h :: r) $"apos") with false by reflexivity.
    rewrite <- (app_nil_r (h :: r)). rewrite (number_complete 16 _ _ ltac:(lia) Hs). cbn [read_number]. rewrite Hc. reflexivity.
Qed.

Lemma ref_chars n c : xref n c -> xchar c /\ Forall (fun d => d <> 59 /\ d < 128) n.
Proof.
  destruct 1 as [| | | | |s c Hs Hc|s c Hs Hc];
    try (split; [unfold xchar; lia|apply Forall_forall; intros d Hd; revert d Hd; vm_compute; intuition; subst; (discriminate || reflexivity)]);
    (split; [exact Hc|]); [destruct (numeral_head 10 s c ltac:(lia) Hs) as [_ Hf]|destruct (numeral_head 16 s c ltac:(lia) Hs) as [_ Hf]];
    (apply Forall_app; split; [apply Forall_forall; intros d Hd; revert d Hd; vm_compute; intuition; subst; (discriminate || reflexivity)|]); (eapply Forall_impl; [|exact Hf]; intros d; cbv beta; tauto).
Qed.

(** ** Attributes *)

Lemma quoted_sound q : forall k s, (length s <= k)%nat ->
  (forall v r, read_quoted q None s = Ok (v, r) -> exists t, s = t ++ q :: r /\ xvalue q t v)
  /\ (forall name v r, read_quoted q (Some name) s = Ok (v, r) ->
       exists n c t v', s = n ++ 59 :: t ++ q :: r /\ xref (rev name ++ n) c /\ v = c :: v' /\ xvalue q t v').
Proof.
  induction k as [|k IH]; intros s Hk; (destruct s as [|c s]; [split; [discriminate|discriminate]|]); cbn [length] in Hk; [lia|].
  split.
  - intros v r. cbn [read_quoted]. destruct (N.eqb_spec c q) as [->|Hq].
    { intros [= <- <-]. exists []. split; [reflexivity|constructor]. }
    destruct (N.eqb_spec c 60) as [->|H60]; [discriminate|].
    destruct (N.eqb_spec c 38) as [->|H38].
    { intros H. apply IH in H; [|lia]. destruct H as [n [d [t [v' [-> [H1 [-> H2]]]]]]]. cbn [rev app] in H1.
      exists ([38] ++ n ++ [59] ++ t). split; [cbn [app]; rewrite <- app_assoc; reflexivity|]. constructor; assumption. }
    destruct (xml_char c) eqn:Hc; cbn [negb]; [|discriminate]. apply char_iff in Hc.
    destruct (N.eqb_spec c 13) as [->|H13].
    { destruct s as [|d s]; [discriminate|]. destruct (N.eqb_spec d 10) as [->|H10]; cbn [bind].
      - destruct (read_quoted q None s) as [[v' r']|] eqn:H; [|discriminate]. cbn [bind fst snd]. intros [= <- <-].
        apply IH in H; [|cbn [length] in Hk; lia]. destruct H as [t [-> Ht]]. exists (13 :: 10 :: t). split; [reflexivity|constructor; exact Ht].
      - destruct (read_quoted q None (d :: s)) as [[v' r']|] eqn:H; [|discriminate]. cbn [bind fst snd]. intros [= <- <-].
        apply IH in H; [|lia]. destruct H as [t [E Ht]]. exists (13 :: t). split; [cbn [app]; f_equal; exact E|].
        apply xval_cr; [|exact Ht]. intros x ->. cbn [app] in E. congruence. }
    destruct (read_quoted q None s) as [[v' r']|] eqn:H; [|discriminate]. cbn [bind fst snd]. intros [= <- <-].
    apply IH in H; [|lia]. destruct H as [t [-> Ht]]. exists (c :: t). split; [reflexivity|].
    destruct (xml_white c) eqn:Hw.
    + apply xval_white; [apply white_iff; exact Hw|exact H13|exact Ht].
    + apply xval_char; auto. intros X. apply white_iff in X. congruence.
  - intros name v r. cbn [read_quoted]. destruct (N.eqb_spec c 59) as [->|H59].
    + destruct (reference (rev name)) as [d|] eqn:Hr; [|discriminate].
      destruct (read_quoted q None s) as [[v' r']|] eqn:H; [|discriminate]. cbn [bind fst snd]. intros [= <- <-].
      apply IH in H; [|lia]. destruct H as [t [-> Ht]]. exists [], d, t, v'. split; [reflexivity|]. rewrite app_nil_r.
      split; [apply reference_sound; exact Hr|]. split; [reflexivity|exact Ht].
    + intros H. apply IH in H; [|lia]. destruct H as [n [d [t [v' [-> [H1 [-> H2]]]]]]]. exists (c :: n), d, t, v'.
      split; [reflexivity|]. split; [|split; [reflexivity|exact H2]]. cbn [rev] in H1. rewrite <- app_assoc in H1. exact H1.
Qed.

Lemma quoted_ref q n : forall name s, Forall (fun d => d <> 59 /\ d < 128) n ->
  read_quoted q (Some name) (n ++ 59 :: s)
  = match reference (rev name ++ n) with
    | Some d => do r <- read_quoted q None s; Ok (d :: fst r, snd r)
    | None => parse_error
    end.
Proof.
  induction n as [|c n IH]; intros name s Hn.
  - rewrite app_nil_r. reflexivity.
  - inversion Hn as [|? ? [Hc _] Hn']; subst. cbn [app read_quoted]. destruct (N.eqb_spec c 59); [contradiction|].
    rewrite IH by exact Hn'. cbn [rev]. rewrite <- app_assoc. reflexivity.
Qed.

Lemma quoted_cr q d s : q <> 13 ->
  read_quoted q None (13 :: d :: s)
  = do r <- (if d =? 10 then read_quoted q None s else read_quoted q None (d :: s)); Ok (32 :: fst r, snd r).
Proof.
  intros Hq. transitivity (if 13 =? q then Ok ([], d :: s) else do r <- (if d =? 10 then read_quoted q None s else read_quoted q None (d :: s)); Ok (32 :: fst r, snd r)); [reflexivity|].
  destruct (N.eqb_spec 13 q); [congruence|reflexivity].
Qed.

Lemma quoted_complete q t v r : q = 34 \/ q = 39 -> xvalue q t v -> read_quoted q None (t ++ q :: r) = Ok (v, r).
Proof.
  intros Hq. induction 1 as [|c s v H1 H2 H3 H4 H5 Hs IH|c s v H1 H2 Hs IH|s v Hs IH|s v H1 Hs IH|n c s v H1 Hs IH].
  - cbn [app read_quoted]. rewrite N.eqb_refl. reflexivity.
  - cbn [app read_quoted]. destruct (N.eqb_spec c q); [contradiction|]. destruct (N.eqb_spec c 60); [contradiction|].
    destruct (N.eqb_spec c 38); [contradiction|]. apply char_iff in H1. rewrite H1. cbn [negb].
    destruct (N.eqb_spec c 13) as [->|_]; [exfalso; apply H2; right; right; right; reflexivity|]. rewrite IH. cbn [bind fst snd].
    destruct (xml_white c) eqn:Hw; [apply white_iff in Hw; contradiction|reflexivity].
  - cbn [app read_quoted]. unfold xwhite in H1. destruct (N.eqb_spec c q); [lia|]. destruct (N.eqb_spec c 60); [lia|].
    destruct (N.eqb_spec c 38); [lia|]. replace (xml_char c) with true by (symmetry; apply char_iff; unfold xchar; lia). cbn [negb].
    destruct (N.eqb_spec c 13); [contradiction|]. rewrite IH. cbn [bind fst snd].
    replace (xml_white c) with true by (symmetry; apply white_iff; exact H1). reflexivity.
  - cbn [app read_quoted]. destruct (N.eqb_spec 13 q); [lia|]. cbn. rewrite IH. reflexivity.
  - destruct s as [|d s].
    + inversion Hs; subst. cbn [app read_quoted]. destruct (N.eqb_spec 13 q); [lia|]. cbn. destruct (N.eqb_spec q 10); [lia|].
      rewrite N.eqb_refl. reflexivity.
    + change ((13 :: d :: s) ++ q :: r) with (13 :: d :: s ++ q :: r). rewrite quoted_cr by lia.
      destruct (N.eqb_spec d 10) as [->|Hd]; [exfalso; exact (H1 s eq_refl)|].
      change (d :: s ++ q :: r) with ((d :: s) ++ q :: r). rewrite IH. reflexivity.
  - cbn [app read_quoted]. destruct (N.eqb_spec 38 q); [lia|]. change (38 =? 60) with false. change (38 =? 38) with true. cbv iota.
    rewrite <- !app_assoc. cbn [app]. destruct (ref_chars n c H1) as [_ Hn].
    rewrite quoted_ref by exact Hn. cbn [rev app]. rewrite (reference_complete n c H1), IH. reflexivity.
Qed.

Lemma name_sound s n r : read_name s = Ok (n, r) -> s = n ++ r /\ xname n.
Proof.
  unfold read_name. destruct s as [|c s]; [discriminate|]. destruct (name_start c) eqn:Hc; [|destruct (foreign c); discriminate].
  destruct (span_split name_char (c :: s)) as [H1 [H2 H3]].
  assert (X : forall o : res (str * str), (o = Ok (span name_char (c :: s)) \/ o = outside) -> o = Ok (n, r) -> c :: s = n ++ r /\ xname n).
  { intros o [-> | ->]; [|discriminate]. intros E0. assert (E : span name_char (c :: s) = (n, r)) by congruence. rewrite E in H1, H2. cbn [fst snd] in H1, H2. split; [exact H1|].
    destruct n as [|d n]. { exfalso. cbn [span] in E. unfold name_char in E. rewrite Hc in E. cbn [orb] in E. congruence. }
    cbn [app] in H1. assert (d = c) by congruence. subst d. exists c, n. split; [reflexivity|]. split; [apply letter_iff; exact Hc|].
    inversion H2; subst. eapply Forall_impl; [|eassumption]. intros a. apply tail_iff. }
  apply X. destruct (snd (span name_char (c :: s))) as [|d t]; [left; reflexivity|]. destruct (foreign d); auto.
Qed.

(** Not the continuation of a name. *)
Definition ends_name (r : str) : Prop := forall c r', r = c :: r' -> name_char c = false /\ foreign c = false.

Lemma name_complete n r : xname n -> ends_name r -> read_name (n ++ r) = Ok (n, r).
Proof.
  intros [c [s [-> [Hc Hs]]]] Hr. unfold read_name. cbn [app]. apply letter_iff in Hc. rewrite Hc.
  change (c :: s ++ r) with ((c :: s) ++ r). rewrite (span_all name_char (c :: s) r).
  - cbn [snd]. destruct r as [|d r]; [reflexivity|]. destruct (Hr d r eq_refl) as [_ ->]. reflexivity.
  - intros d [<-|Hd]; [unfold name_char; rewrite Hc; reflexivity|]. rewrite Forall_forall in Hs. apply tail_iff, Hs, Hd.
  - intros d r' X. apply (Hr d r' X).
Qed.

Lemma white_ends c : xwhite c -> name_char c = false /\ foreign c = false.
Proof. unfold xwhite, name_char, name_start, foreign. lia. Qed.

Lemma ends_name_white w s : Forall xwhite w -> ends_name s -> ends_name (w ++ s).
Proof.
  intros Hw Hs c r X. destruct Hw as [|d w Hd Hw]; [exact (Hs c r X)|]. cbn [app] in X. assert (c = d) by congruence. subst c.
  apply white_ends, Hd.
Qed.

(** Skipping white space. *)
Lemma skip_white w s : Forall xwhite w -> (forall c r, s = c :: r -> xml_white c = false) -> span xml_white (w ++ s) = (w, s).
Proof. intros Hw Hs. apply span_all; [apply white_forall; exact Hw|exact Hs]. Qed.

Lemma span_white_sound s : s = fst (span xml_white s) ++ snd (span xml_white s) /\ Forall xwhite (fst (span xml_white s))
  /\ Forall xwhite (fst (span xml_white s)).
Proof.
  destruct (span_split xml_white s) as [H1 [H2 _]]. assert (Forall xwhite (fst (span xml_white s))); [|auto].
  eapply Forall_impl; [|exact H2]. intros c. apply white_iff.
Qed.

Definition tag_end (b : bool) : str := if b then [47; 62] else [62].

Lemma aget_fresh (n : str) (l : list (str * str)) : aget n l = None <-> ~ In n (map fst l).
Proof.
  induction l as [|[m v] l IH]; cbn [aget map fst]; [intuition|]. destruct (str_eqb_spec n m) as [->|H].
  - split; [discriminate|]. intros X. exfalso. apply X. left. reflexivity.
  - rewrite IH. cbn [In]. split; [intros X [Y|Y]; [congruence|contradiction]|tauto].
Qed.


Lemma fresh_last {A} (l : list A) x : NoDup l -> ~ In x l -> NoDup (l ++ [x]).
Proof.
  intros Hl Hx. induction Hl as [|y l Hy Hl IH]; [repeat constructor; intros []|]. cbn [app]. constructor.
  - intros H. apply in_app_or in H. destruct H as [H|[<-|[]]]; [contradiction|]. apply Hx. left. reflexivity.
  - apply IH. intros H. apply Hx. right. exact H.
Qed.

Lemma attrs_sound : forall fuel attrs s l b r, read_attrs fuel attrs s = Ok (l, b, r) -> NoDup (map fst attrs) ->
  exists a l' w, s = a ++ w ++ tag_end b ++ r /\ xattributes a l' /\ Forall xwhite w /\ l = attrs ++ l' /\ NoDup (map fst l).
Proof.
  induction fuel as [|fuel IH]; intros attrs s l b r; cbn [read_attrs]; [discriminate|].
  destruct (span_white_sound s) as [E [Hw _]]. destruct (snd (span xml_white s)) as [|c r0] eqn:Es; [discriminate|].
  set (w := fst (span xml_white s)) in *.
  destruct (N.eqb_spec c 62) as [->|H62].
  { intros [= <- <- <-] Hn. exists [], [], w. rewrite app_nil_r. split; [exact E|]. split; [constructor|]. auto. }
  destruct (N.eqb_spec c 47) as [->|H47].
  { destruct r0 as [|d r0]; [discriminate|]. destruct (N.eqb_spec d 62) as [->|_]; [|discriminate].
    intros [= <- <- <-] Hn. exists [], [], w. rewrite app_nil_r. split; [exact E|]. split; [constructor|]. auto. }
  destruct w as [|w0 w'] eqn:Ew; [discriminate|]. rewrite <- Ew in *. assert (Hw0 : w <> []) by (rewrite Ew; discriminate). clear Ew.
  destruct (read_name (c :: r0)) as [[n r1]|] eqn:Hn; [|discriminate]. cbn [bind fst snd].
  apply name_sound in Hn. destruct Hn as [En Hn].
  destruct (span_white_sound r1) as [E1 [Hw1 _]]. destruct (snd (span xml_white r1)) as [|e r2] eqn:Es1; [discriminate|].
  destruct (N.eqb_spec e 61) as [->|_]; [|discriminate].
  destruct (span_white_sound r2) as [E2 [Hw2 _]]. destruct (snd (span xml_white r2)) as [|q r3] eqn:Es2; [discriminate|].
  destruct ((q =? 34) || (q =? 39)) eqn:Hq; [|discriminate].
  destruct (read_quoted q None r3) as [[v r4]|] eqn:Hv; [|discriminate]. cbn [bind fst snd].
  apply (proj1 (quoted_sound q _ r3 (le_n _))) in Hv. destruct Hv as [t [E3 Hv]].
  destruct (str_eqb_spec n $"xmlns") as [|Hx]; [discriminate|].
  destruct (aget n attrs) eqn:Ha; [discriminate|]. apply aget_fresh in Ha. intros H Hd.
  apply IH in H.
  2:{ rewrite map_app. apply fresh_last; [exact Hd|exact Ha]. }
  destruct H as [a [l' [w3 [E4 [H1 [H2 [-> H3]]]]]]].
  exists (w ++ n ++ fst (span xml_white r1) ++ [61] ++ fst (span xml_white r2) ++ [q] ++ t ++ [q] ++ a), ((n, v) :: l'), w3.
  split; [|split; [|split; [exact H2|rewrite <- app_assoc; split; [reflexivity|rewrite <- app_assoc in H3; exact H3]]]].
  - rewrite E at 1. rewrite En, E1 at 1. rewrite E2 at 1. rewrite E3, E4. rewrite <- ?app_assoc. cbn [app]. rewrite <- ?app_assoc. cbn [app]. rewrite <- ?app_assoc. reflexivity.
  - constructor; auto. lia.
Qed.

Lemma attrs_complete a l' : xattributes a l' -> forall fuel attrs w b r, (length a < fuel)%nat ->
  NoDup (map fst (attrs ++ l')) -> Forall xwhite w ->
  read_attrs fuel attrs (a ++ w ++ tag_end b ++ r) = Ok (attrs ++ l', b, r).
Proof.
  induction 1 as [|w0 n w1 w2 q t v s l Hw0 Hn0 Hn Hx Hw1 Hw2 Hq Hv Hs IH]; intros fuel attrs w b r Hf Hd Hw;
    (destruct fuel as [|fuel]; [cbn [length] in Hf; lia|]).
  - cbn [app read_attrs]. rewrite app_nil_r. rewrite skip_white; [|exact Hw|].
    2:{ intros c r' X. destruct b; cbn [tag_end app] in X; [assert (c = 47) by congruence|assert (c = 62) by congruence]; subst; reflexivity. }
    cbn [fst snd]. destruct b; reflexivity.
  - rewrite !app_length in Hf. cbn [length] in Hf. rewrite <- !app_assoc. cbn [app]. cbn [read_attrs].
    destruct Hn as [nc [nr [En [Hnc Hnr]]]].
    assert (Hns : xname n) by (exists nc, nr; auto).
    rewrite skip_white; [|exact Hw0|].
    2:{ intros c r' X. rewrite En in X. cbn [app] in X. assert (c = nc) by congruence. subst c. unfold xletter in Hnc. unfold xml_white. lia. }
    cbn [fst snd]. destruct n as [|nc' nr']; [discriminate|]. assert (nc' = nc) by congruence. subst nc'.
    cbn [app]. destruct (N.eqb_spec nc 62); [unfold xletter in Hnc; lia|]. destruct (N.eqb_spec nc 47); [unfold xletter in Hnc; lia|].
    destruct w0 as [|x0 w0]; [contradiction|].
    match goal with |- context [read_name (nc :: nr' ++ ?m)] => assert (R : read_name ((nc :: nr') ++ m) = Ok (nc :: nr', m)) end.
    { apply name_complete; [exact Hns|]. apply ends_name_white; [exact Hw1|]. intros c r' X. assert (c = 61) by congruence. subst. split; reflexivity. }
    cbn [app] in R. rewrite R. cbn [bind fst snd].
    rewrite skip_white; [|exact Hw1|intros c r' X; assert (c = 61) by congruence; subst; reflexivity]. cbn [snd]. change (61 =? 61) with true. cbv iota.
    rewrite skip_white; [|exact Hw2|intros c r' X; assert (c = q) by congruence; subst; unfold xml_white; lia]. cbn [snd].
    replace ((q =? 34) || (q =? 39)) with true by lia.
    rewrite (quoted_complete q t v _ Hq Hv). cbn [bind fst snd].
    destruct (str_eqb_spec (nc :: nr') $"xmlns"); [contradiction|].
    replace (aget (nc :: nr') attrs) with (@None str).
    2:{ symmetry. apply aget_fresh. intros X. rewrite map_app in Hd. cbn [map fst] in Hd. apply NoDup_remove_2 in Hd. apply Hd. apply in_or_app. left. exact X. }
    rewrite IH; [|lia|rewrite <- app_assoc; exact Hd|exact Hw]. rewrite <- app_assoc. reflexivity.
Qed.



(** ** What is written by the grammar is read *)

Lemma attributes_head a l : xattributes a l -> forall s, ends_name s -> ends_name (a ++ s).
Proof.
  destruct 1 as [|w0 n w1 w2 q t v s l Hw0 Hn0 Hn Hx Hw1 Hw2 Hq Hv Hs]; intros r Hr; [exact Hr|].
  destruct Hw0 as [|c w0 Hc Hw0]; [contradiction|]. intros d r' X. cbn [app] in X. assert (d = c) by congruence. subst d.
  apply white_ends, Hc.
Qed.

Lemma tag_end_ends b r : ends_name (tag_end b ++ r).
Proof. intros c r' X. destruct b; cbn [tag_end app] in X; [assert (c = 47) by congruence|assert (c = 62) by congruence]; subst; split; reflexivity. Qed.

Lemma name_first n r : xname n -> exists c s, n ++ r = c :: s /\ (c =? 33) = false /\ (c =? 63) = false /\ (c =? 47) = false.
Proof.
  intros [c [s [-> [Hc _]]]]. exists c, (s ++ r). split; [reflexivity|]. unfold xletter in Hc. lia.
Qed.

Lemma lex_open n a l w b r : xname n -> xattributes a l -> NoDup (map fst l) -> Forall xwhite w ->
  lexes (60 :: n ++ a ++ w ++ tag_end b ++ r) (Start n l :: if b then [End n] else []) r.
Proof.
  intros Hn Ha Hl Hw. apply lexes_one.
  - unfold next_events. change (60 =? 60) with true. cbv iota.
    assert (Hr := name_complete n (a ++ w ++ tag_end b ++ r) Hn (attributes_head a l Ha _ (ends_name_white w _ Hw (tag_end_ends b r)))).
    destruct (name_first n (a ++ w ++ tag_end b ++ r) Hn) as [c [s [E [H1 [H2 H3]]]]].
    assert (Hlen : (length a < S (S (length (n ++ a ++ w ++ tag_end b ++ r))))%nat) by (rewrite !app_length; lia).
    rewrite E in *. rewrite H1, H2, H3. cbn [orb]. rewrite Hr. cbn [bind fst snd length].
    rewrite (attrs_complete a l Ha _ [] w b r); [reflexivity| |exact Hl|exact Hw]. cbn [length] in Hlen. lia.
  - cbn [length]. rewrite !app_length. lia.
Qed.

Lemma lex_close n w r : xname n -> Forall xwhite w -> lexes (60 :: 47 :: n ++ w ++ 62 :: r) [End n] r.
Proof.
  intros Hn Hw. apply lexes_one.
  - unfold next_events. change (60 =? 60) with true. cbv iota. change (47 =? 33) with false. change (47 =? 63) with false. change (47 =? 47) with true. cbn [orb].
    rewrite (name_complete n (w ++ 62 :: r) Hn (ends_name_white w _ Hw (tag_end_ends false r))). cbn [bind fst snd].
    rewrite skip_white; [|exact Hw|intros c r' X; assert (c = 62) by congruence; subst; reflexivity]. reflexivity.
  - cbn [length]. rewrite !app_length. cbn [length]. lia.
Qed.

(** A frame with further characters and children. *)
Definition fed (d : str) (f : frame) : frame := fold_left (fun f c => characters c f) d f.
Definition joined (es : list elem) (f : frame) : frame :=
  {| f_tag := f_tag f; f_attrs := f_attrs f; f_text := f_text f; f_children := rev es ++ f_children f |}.

Lemma fed_tag d : forall f, f_tag (fed d f) = f_tag f.
Proof.
  induction d as [|c d IH]; intros f; [reflexivity|]. cbn [fed fold_left]. unfold fed in IH. rewrite IH.
  unfold characters. destruct (f_children f); reflexivity.
Qed.
Lemma fed_attach d e f : fed d (attach e f) = attach e f.
Proof. induction d as [|c d IH]; [reflexivity|exact IH]. Qed.
Lemma fed_new n l d : fed d {| f_tag := n; f_attrs := l; f_text := []; f_children := [] |}
  = {| f_tag := n; f_attrs := l; f_text := rev d; f_children := [] |}.
Proof.
  enough (H : forall t, fed d {| f_tag := n; f_attrs := l; f_text := t; f_children := [] |}
    = {| f_tag := n; f_attrs := l; f_text := rev d ++ t; f_children := [] |}) by (rewrite H, app_nil_r; reflexivity).
  induction d as [|c d IH]; intros t; [reflexivity|]. cbn [rev]. rewrite <- app_assoc. cbn [app]. rewrite <- IH. reflexivity.
Qed.
Lemma closed_new n l d es : closed (joined es (fed d {| f_tag := n; f_attrs := l; f_text := []; f_children := [] |}))
  = Elem n l (match d with [] => None | _ => Some d end) es.
Proof.
  rewrite fed_new. unfold joined, closed. cbn [f_tag f_attrs f_text f_children]. rewrite app_nil_r, rev_involutive. f_equal.
  destruct d as [|c d]; [reflexivity|]. destruct (rev (c :: d)) as [|x y] eqn:E.
  - apply (f_equal (@rev N)) in E. rewrite rev_involutive in E. discriminate.
  - rewrite <- E, rev_involutive. reflexivity.
Qed.

Lemma lex_char c r : xchar c -> c <> 13 -> c <> 60 -> c <> 38 -> ~ (c = 93 /\ exists x, r = 93 :: 62 :: x) -> next_events (c :: r) = Ok ([Data c], r).
Proof.
  intros H1 H2 H3 H4 H5. unfold next_events. apply char_iff in H1. rewrite H1. destruct (N.eqb_spec c 60); [contradiction|].
  destruct (N.eqb_spec c 38); [contradiction|]. cbn [negb]. destruct (N.eqb_spec c 13); [contradiction|].
  destruct (N.eqb_spec c 93) as [->|]; [|reflexivity]. cbn [andb]. destruct (starts_with $"]>" r) eqn:E; [|reflexivity].
  exfalso. apply H5. split; [reflexivity|]. unfold starts_with in E. destruct (str_eqb_spec (firstn (length $"]>") r) $"]>") as [X|]; [|discriminate].
  destruct r as [|a [|b r]]; [discriminate X|discriminate X|]. cbn in X. assert (a = 93) by congruence. assert (b = 62) by congruence. subst. eauto.
Qed.

Lemma text_read t d : xtext t d -> exists evs, (forall r, lexes (t ++ 60 :: r) evs (60 :: r))
  /\ forall evs' f st root, build (evs ++ evs') (f :: st) root = build evs' (fed d f :: st) root.
Proof.
  induction 1 as [|c s d H1 H2 H3 H4 H5 Hs [evs [IH1 IH2]]|s d Hs [evs [IH1 IH2]]|s d H1 Hs [evs [IH1 IH2]]|n c s d H1 Hs [evs [IH1 IH2]]].
  - exists []. split; [intros r; apply lexes_nil|reflexivity].
  - exists ([Data c] ++ evs). split; [|intros; apply IH2]. intros r. eapply lexes_trans; [|apply IH1].
    apply lexes_one; [|cbn [app length]; lia]. apply lex_char; auto. intros [-> [x X]]. apply H5. split; [reflexivity|].
    destruct s as [|a [|b s]]; cbn [app] in X; [congruence|assert (60 = 62) by congruence; lia|].
    assert (a = 93) by congruence. assert (b = 62) by congruence. subst. eauto.
  - exists ([Data 10] ++ evs). split; [|intros; apply IH2]. intros r. eapply lexes_trans; [|apply IH1].
    apply lexes_one; [|cbn [app length]; lia]. reflexivity.
  - exists ([Data 10] ++ evs). split; [|intros; apply IH2]. intros r. eapply lexes_trans; [|apply IH1].
    apply lexes_one; [|cbn [app length]; lia]. destruct s as [|a s]; [reflexivity|]. cbn [app]. unfold next_events.
    change (13 =? 60) with false. change (13 =? 38) with false. change (xml_char 13) with true. change (13 =? 13) with true. cbn [negb].
    destruct (N.eqb_spec a 10) as [->|]; [exfalso; exact (H1 s eq_refl)|reflexivity].
  - exists ([Ref c] ++ evs). split; [|intros; apply IH2]. intros r. eapply lexes_trans; [|apply IH1].
    eapply lexes_eq; [apply (lex_reference n c)|].
    + intros x Hx. destruct (ref_chars n c H1) as [_ Hf]. rewrite Forall_forall in Hf. apply Hf in Hx. tauto.
    + apply reference_complete, H1.
    + rewrite <- !app_assoc. reflexivity.
Qed.

Lemma build_start n l evs stack root : (stack = [] -> root = None) ->
  build (Start n l :: evs) stack root = build evs ({| f_tag := n; f_attrs := l; f_text := []; f_children := [] |} :: stack) root.
Proof. intros H. destruct stack; [rewrite (H eq_refl)|]; reflexivity. Qed.

Scheme xelement_mind := Induction for xelement Sort Prop with xnodes_mind := Induction for xnodes Sort Prop.
Combined Scheme xelement_xnodes_ind from xelement_mind, xnodes_mind.

Lemma element_read :
  (forall s e, xelement s e -> exists evs, (forall r, lexes (s ++ r) evs r)
     /\ forall evs' stack root, (stack = [] -> root = None) -> build (evs ++ evs') stack root
        = match stack with [] => build evs' [] (Some e) | g :: st => build evs' (attach e g :: st) root end)
  /\ (forall c es, xnodes c es -> exists evs, (forall r, lexes (c ++ 60 :: r) evs (60 :: r))
     /\ (exists c', forall r, c ++ 60 :: r = 60 :: c' r)
     /\ forall evs' f st root, build (evs ++ evs') (f :: st) root = build evs' (joined es f :: st) root).
Proof.
  apply xelement_xnodes_ind.
  - intros n a l w Hn Ha Hl Hw. exists (Start n l :: [End n]). split.
    + intros r. eapply lexes_eq; [apply (lex_open n a l w true r); assumption|]. rewrite <- !app_assoc. reflexivity.
    + intros evs' stack root Hr. change ((Start n l :: [End n]) ++ evs') with (Start n l :: End n :: evs'). rewrite build_start by exact Hr.
      cbn [build f_tag]. rewrite str_eqb_refl. cbn [negb]. destruct stack; reflexivity.
  - intros n a l w t d c es w' Hn Ha Hl Hw Ht Hc [evc [IH1 [[c' IH0] IH2]]] Hw'.
    destruct (text_read t d Ht) as [evt [Ht1 Ht2]].
    exists ([Start n l] ++ evt ++ evc ++ [End n]). split.
    + intros r. eapply lexes_eq; [eapply lexes_trans; [apply (lex_open n a l w false (t ++ c ++ 60 :: 47 :: n ++ w' ++ 62 :: r)); assumption|]|].
      * eapply lexes_trans; [|eapply lexes_trans; [apply (IH1 (47 :: n ++ w' ++ 62 :: r))|apply lex_close; assumption]]. rewrite IH0. apply Ht1.
      * cbn [tag_end]. rewrite <- !app_assoc. cbn [app]. rewrite <- ?app_assoc. reflexivity.
    + intros evs' stack root Hr. rewrite <- !app_assoc.
      change ([Start n l] ++ evt ++ evc ++ [End n] ++ evs') with (Start n l :: evt ++ evc ++ End n :: evs').
      rewrite build_start by exact Hr. set (f0 := {| f_tag := n; f_attrs := l; f_text := []; f_children := [] |}).
      rewrite Ht2, IH2. cbn [build]. replace (f_tag (joined es (fed d f0))) with n by (cbn [joined f_tag]; rewrite fed_tag; reflexivity).
      rewrite str_eqb_refl. cbn [negb]. unfold f0. rewrite closed_new. destruct stack; reflexivity.
  - exists []. split; [intros r; apply lexes_nil|]. split; [exists (fun r => r); reflexivity|]. intros evs' [? ? ? ?] st root. reflexivity.
  - intros s e t d c es He [eve [IH1 IH2]] Ht Hc [evc [IH3 [[c' IH0] IH4]]]. destruct (text_read t d Ht) as [evt [Ht1 Ht2]].
    exists (eve ++ evt ++ evc). split; [|split].
    + intros r. rewrite <- !app_assoc. eapply lexes_trans; [apply IH1|]. eapply lexes_trans; [|apply IH3]. rewrite IH0. apply Ht1.
    + assert (exists s', s = 60 :: s') as [s' ->]; [|eexists; reflexivity]. destruct He; eexists; reflexivity.
    + intros evs' f st root. rewrite <- !app_assoc. rewrite IH2 by discriminate. cbv iota. rewrite Ht2, IH4. rewrite fed_attach.
      unfold joined, attach. cbn [f_tag f_attrs f_text f_children rev]. rewrite <- app_assoc. reflexivity.
Qed.



(** ** What is read is written by the grammar *)

Inductive next : str -> list event -> str -> Prop :=
| next_close : forall n w r, xname n -> Forall xwhite w -> next (60 :: 47 :: n ++ w ++ 62 :: r) [End n] r
| next_open : forall n a l w b r, xname n -> xattributes a l -> NoDup (map fst l) -> Forall xwhite w ->
    next (60 :: n ++ a ++ w ++ tag_end b ++ r) (Start n l :: if b then [End n] else []) r
| next_ref : forall n c r, xref n c -> next (38 :: n ++ 59 :: r) [Ref c] r
| next_crlf : forall r, next (13 :: 10 :: r) [Data 10] r
| next_cr : forall r, (forall x, r <> 10 :: x) -> next (13 :: r) [Data 10] r
| next_char : forall c r, xchar c -> c <> 13 -> c <> 60 -> c <> 38 -> ~ (c = 93 /\ exists x, r = 93 :: 62 :: x) ->
    next (c :: r) [Data c] r.

Lemma next_sound s ev r : next_events s = Ok (ev, r) -> next s ev r.
Proof.
  unfold next_events. destruct s as [|c s]; [discriminate|].
  destruct (N.eqb_spec c 60) as [->|H60].
  { destruct s as [|d s]; [discriminate|]. destruct ((d =? 33) || (d =? 63)); [discriminate|].
    destruct (N.eqb_spec d 47) as [->|H47].
    - destruct (read_name s) as [[n r1]|] eqn:Hn; [|discriminate]. apply name_sound in Hn. destruct Hn as [-> Hn]. cbn [bind fst snd].
      destruct (span_white_sound r1) as [E [Hw _]]. destruct (snd (span xml_white r1)) as [|e r2]; [discriminate|].
      destruct (N.eqb_spec e 62) as [->|_]; [|discriminate]. intros [= <- <-]. rewrite E. constructor; assumption.
    - destruct (read_name (d :: s)) as [[n r1]|] eqn:Hn; [|discriminate]. apply name_sound in Hn. destruct Hn as [E Hn]. cbn [bind fst snd].
      destruct (read_attrs _ [] r1) as [[[l b] r2]|] eqn:Ha; [|discriminate]. cbn [bind fst snd].
      apply attrs_sound in Ha; [|constructor]. destruct Ha as [a [l' [w [E1 [H1 [H2 [-> H3]]]]]]]. cbn [app] in *.
      intros X. assert (r2 = r) by congruence. subst r2. injection X as <-. rewrite E, E1. constructor; assumption. }
  destruct (N.eqb_spec c 38) as [->|H38].
  { destruct (span_split (fun d => negb (d =? 59)) s) as [E [_ H]]. destruct (span (fun d => negb (d =? 59)) s) as [n [|d r1]]; [discriminate|].
    cbn [fst snd] in *. specialize (H d r1 eq_refl). assert (d = 59) by lia. subst d.
    destruct (reference n) as [k|] eqn:Hk; [|discriminate]. intros [= <- <-]. rewrite E. constructor. apply reference_sound, Hk. }
  destruct (xml_char c) eqn:Hc; [|discriminate]. cbn [negb]. apply char_iff in Hc.
  destruct (N.eqb_spec c 13) as [->|H13].
  { destruct s as [|d s].
    - intros [= <- <-]. apply next_cr. discriminate.
    - destruct (N.eqb_spec d 10) as [->|H10]; intros [= <- <-]; [apply next_crlf|]. apply next_cr. intros x. congruence. }
  destruct ((c =? 93) && starts_with $"]>" s) eqn:Hb; [discriminate|]. intros [= <- <-]. apply next_char; auto.
  intros [-> [x ->]]. discriminate Hb.
Qed.

Lemma events_split n s evs : events n s = Ok evs -> s = [] /\ evs = []
  \/ exists n' ev r evr, n = S n' /\ next s ev r /\ events n' r = Ok evr /\ evs = ev ++ evr.
Proof.
  destruct s as [|c s]; [destruct n; intros [= <-]; auto|]. destruct n as [|n]; [discriminate|].
  change (events (S n) (c :: s)) with (do e <- next_events (c :: s); do r <- events n (snd e); Ok (fst e ++ r)).
  destruct (next_events (c :: s)) as [[ev r]|] eqn:H1; [|discriminate]. cbn [bind fst snd].
  destruct (events n r) as [evr|] eqn:H2; [|discriminate]. cbn [bind]. intros [= <-]. right.
  exists n, ev, r, evr. split; [reflexivity|]. split; [apply next_sound, H1|]. auto.
Qed.

Lemma characters_tag c f : f_tag (characters c f) = f_tag f.
Proof. unfold characters. destruct (f_children f); reflexivity. Qed.

Lemma starts_apart (t c r : str) : (exists x, c ++ 60 :: r = 60 :: x) ->
  (forall y, t = 10 :: y -> exists z, t ++ c ++ 60 :: r = 10 :: z)
  /\ (forall y, t = 93 :: 62 :: y -> exists z, t ++ c ++ 60 :: r = 93 :: 62 :: z).
Proof. intros _. split; intros y ->; eexists; reflexivity. Qed.

Definition resumed (evs : list event) (st : list frame) (root : option elem) (e : elem) : res elem :=
  match st with [] => build evs [] (Some e) | g :: st' => build evs (attach e g :: st') root end.

Lemma inner_sound : forall n s evs f st root e, events n s = Ok evs -> build evs (f :: st) root = Ok e ->
  exists t d c es w r n' evs', s = t ++ c ++ $"</" ++ f_tag f ++ w ++ $">" ++ r
    /\ xtext t d /\ xnodes c es /\ xname (f_tag f) /\ Forall xwhite w /\ (n' < n)%nat
    /\ events n' r = Ok evs' /\ resumed evs' st root (closed (joined es (fed d f))) = Ok e.
Proof.
  induction n as [n IH] using lt_wf_ind. intros s evs f st root e He Hb.
  apply events_split in He. destruct He as [[-> ->]|[n0 [ev [r0 [evr [-> [Hn [He ->]]]]]]]]; [discriminate|].
  assert (Step : forall piece k, (forall t d, (exists z, r0 = t ++ z) -> xtext t d -> xtext (piece ++ t) (k :: d)) -> s = piece ++ r0 ->
    build evr (characters k f :: st) root = Ok e ->
    exists t d c es w r n' evs', s = t ++ c ++ $"</" ++ f_tag f ++ w ++ $">" ++ r
    /\ xtext t d /\ xnodes c es /\ xname (f_tag f) /\ Forall xwhite w /\ (n' < S n0)%nat
    /\ events n' r = Ok evs' /\ resumed evs' st root (closed (joined es (fed d f))) = Ok e).
  { intros piece k Hp -> Hk. destruct (IH n0 (Nat.lt_succ_diag_r n0) r0 evr _ st root e He Hk) as [t [d [c [es [w [r [n' [evs' [H1 [H2 [H3 [H4 [H5 [H6 [H7 H8]]]]]]]]]]]]]]].
    rewrite characters_tag in *. exists (piece ++ t), (k :: d), c, es, w, r, n', evs'. split; [rewrite H1, <- app_assoc; reflexivity|].
    split; [apply Hp; [eexists; exact H1|exact H2]|]. repeat (split; [assumption||lia|]). exact H8. }
  destruct Hn as [m w r Hm Hw|m a l w b r Hm Ha Hl Hw|m k r Hm|r|r Hr|k r H1 H2 H3 H4 H5].
  - cbn [app build] in Hb. destruct (str_eqb_spec m (f_tag f)) as [->|]; [|discriminate]. cbn [negb] in Hb.
    exists [], [], [], [], w, r, n0, evr. split; [reflexivity|]. split; [constructor|]. split; [constructor|]. split; [exact Hm|]. split; [exact Hw|].
    split; [lia|]. split; [exact He|]. replace (joined [] (fed [] f)) with f by (destruct f; reflexivity). exact Hb.
  - assert (Node : forall s1 e1 r1 n1 ev1, xelement s1 e1 -> s1 ++ r1 = 60 :: m ++ a ++ w ++ tag_end b ++ r -> (n1 <= n0)%nat -> events n1 r1 = Ok ev1 ->
      build ev1 (attach e1 f :: st) root = Ok e ->
      exists t d c es w0 r2 n' evs', 60 :: m ++ a ++ w ++ tag_end b ++ r = t ++ c ++ $"</" ++ f_tag f ++ w0 ++ $">" ++ r2
      /\ xtext t d /\ xnodes c es /\ xname (f_tag f) /\ Forall xwhite w0 /\ (n' < S n0)%nat
      /\ events n' r2 = Ok evs' /\ resumed evs' st root (closed (joined es (fed d f))) = Ok e).
    { intros s1 e1 r1 n1 ev1 X1 X2 X3 X4 X5.
      destruct (IH n1 ltac:(lia) r1 ev1 _ st root e X4 X5) as [t [d [c [es [w0 [r2 [n' [evs' [H1 [H2 [H3 [H4 [H5 [H6 [H7 H8]]]]]]]]]]]]]]].
      cbn [attach f_tag] in *. exists [], [], (s1 ++ t ++ c), (e1 :: es), w0, r2, n', evs'.
      split; [rewrite <- X2, H1, <- !app_assoc; reflexivity|]. split; [constructor|]. split; [econstructor; eassumption|].
      repeat (split; [assumption||lia|]). rewrite fed_attach in H8. rewrite <- H8. f_equal. f_equal.
      unfold joined, attach. cbn [fed fold_left f_tag f_attrs f_text f_children rev]. rewrite <- app_assoc. reflexivity. }
    destruct b.
    + change ((Start m l :: [End m]) ++ evr) with (Start m l :: End m :: evr) in Hb. rewrite build_start in Hb by discriminate.
      cbn [build f_tag] in Hb. rewrite str_eqb_refl in Hb. cbn [negb] in Hb.
      apply (Node ($"<" ++ m ++ a ++ w ++ $"/>") (Elem m l None []) r n0 evr); [constructor; assumption| |lia|exact He|exact Hb].
      rewrite <- !app_assoc. reflexivity.
    + change ([Start m l] ++ evr) with (Start m l :: evr) in Hb. rewrite build_start in Hb by discriminate.
      destruct (IH n0 (Nat.lt_succ_diag_r n0) r evr _ (f :: st) root e He Hb) as [t [d [c [es [w0 [r2 [n' [evs' [H1 [H2 [H3 [H4 [H5 [H6 [H7 H8]]]]]]]]]]]]]]].
      cbn [f_tag] in *. rewrite closed_new in H8. cbn [resumed] in H8.
      apply (Node ($"<" ++ m ++ a ++ w ++ $">" ++ t ++ c ++ $"</" ++ m ++ w0 ++ $">") (Elem m l (match d with [] => None | _ => Some d end) es) r2 n' evs');
        [constructor; assumption| |lia|exact H7|exact H8].
      rewrite H1. cbn [tag_end]. rewrite <- !app_assoc. reflexivity.
  - apply (Step ([38] ++ m ++ [59]) k); [|rewrite <- !app_assoc; reflexivity|exact Hb]. intros t d _ Ht. rewrite <- !app_assoc. constructor; assumption.
  - apply (Step [13; 10] 10); [|reflexivity|exact Hb]. intros t d _ Ht. constructor. exact Ht.
  - apply (Step [13] 10); [|reflexivity|exact Hb]. intros t d [z Hz] Ht. apply xtext_cr; [|exact Ht]. intros x ->. exact (Hr _ Hz).
  - apply (Step [k] k); [|reflexivity|exact Hb]. intros t d [z Hz] Ht. apply xtext_char; auto. intros [-> [x ->]]. apply H5. split; [reflexivity|]. eexists. exact Hz.
Qed.

Lemma after_sound : forall n s evs e0 e, events n s = Ok evs -> build evs [] (Some e0) = Ok e -> Forall xwhite s /\ e0 = e.
Proof.
  induction n as [|n IH]; intros s evs e0 e He Hb; apply events_split in He;
    (destruct He as [[-> ->]|[n0 [ev [r0 [evr [En [Hn [He ->]]]]]]]]; [injection Hb as ->; split; [constructor|reflexivity]|]); [discriminate|].
  injection En as <-. destruct Hn as [m w r Hm Hw|m a l w b r Hm Ha Hl Hw|m k r Hm|r|r Hr|k r H1 H2 H3 H4 H5]; cbn [app build] in Hb; try discriminate.
  - change (xml_white 10) with true in Hb. destruct (IH _ _ _ _ He Hb). split; [|assumption]. constructor; [unfold xwhite; auto|]. constructor; [unfold xwhite; auto|assumption].
  - change (xml_white 10) with true in Hb. destruct (IH _ _ _ _ He Hb). split; [|assumption]. constructor; [unfold xwhite; auto|assumption].
  - destruct (xml_white k) eqn:Hk; [|discriminate]. destruct (IH _ _ _ _ He Hb). split; [|assumption]. constructor; [apply white_iff; exact Hk|assumption].
Qed.

Lemma outer_sound : forall n s evs e, events n s = Ok evs -> build evs [] None = Ok e ->
  exists w s' w', s = w ++ s' ++ w' /\ Forall xwhite w /\ xelement s' e /\ Forall xwhite w'.
Proof.
  induction n as [|n IH]; intros s evs e He Hb; apply events_split in He;
    (destruct He as [[-> ->]|[n0 [ev [r0 [evr [En [Hn [He ->]]]]]]]]; [discriminate|]); [discriminate|].
  injection En as <-.
  assert (Skip : forall c, xwhite c -> (exists w s' w', r0 = w ++ s' ++ w' /\ Forall xwhite w /\ xelement s' e /\ Forall xwhite w') ->
    exists w s' w', c :: r0 = w ++ s' ++ w' /\ Forall xwhite w /\ xelement s' e /\ Forall xwhite w').
  { intros c Hc [w [s' [w' [-> [H1 H2]]]]]. exists (c :: w), s', w'. split; [reflexivity|]. split; [constructor; assumption|exact H2]. }
  destruct Hn as [m w r Hm Hw|m a l w b r Hm Ha Hl Hw|m k r Hm|r|r Hr|k r H1 H2 H3 H4 H5].
  - discriminate Hb.
  - destruct b.
    + change ((Start m l :: [End m]) ++ evr) with (Start m l :: End m :: evr) in Hb. rewrite build_start in Hb by reflexivity.
      cbn [build f_tag] in Hb. rewrite str_eqb_refl in Hb. cbn [negb] in Hb. destruct (after_sound _ _ _ _ _ He Hb) as [H1 <-].
      exists [], ($"<" ++ m ++ a ++ w ++ $"/>"), r. split; [rewrite <- !app_assoc; reflexivity|]. split; [constructor|]. split; [constructor; assumption|exact H1].
    + change ([Start m l] ++ evr) with (Start m l :: evr) in Hb. rewrite build_start in Hb by reflexivity.
      destruct (inner_sound _ _ _ _ _ _ _ He Hb) as [t [d [c [es [w0 [r2 [n' [evs' [H1 [H2 [H3 [H4 [H5 [H6 [H7 H8]]]]]]]]]]]]]]].
      cbn [f_tag] in *. rewrite closed_new in H8. cbn [resumed] in H8. destruct (after_sound _ _ _ _ _ H7 H8) as [H9 <-].
      exists [], ($"<" ++ m ++ a ++ w ++ $">" ++ t ++ c ++ $"</" ++ m ++ w0 ++ $">"), r2.
      split; [rewrite H1; cbn [tag_end]; rewrite <- !app_assoc; reflexivity|]. split; [constructor|]. split; [constructor; assumption|exact H9].
  - discriminate Hb.
  - cbn [app build] in Hb. change (xml_white 10) with true in Hb. destruct (Skip 10) as [w [s' [w' [E [X1 X2]]]]]; [unfold xwhite; auto|exact (IH _ _ _ He Hb)|].
    exists (13 :: w), s', w'. split; [cbn [app]; f_equal; exact E|]. split; [constructor; [unfold xwhite; auto|exact X1]|exact X2].
  - cbn [app build] in Hb. change (xml_white 10) with true in Hb. apply Skip; [unfold xwhite; auto|exact (IH _ _ _ He Hb)].
  - cbn [app build] in Hb. destruct (xml_white k) eqn:Hk; [|discriminate]. apply Skip; [apply white_iff; exact Hk|exact (IH _ _ _ He Hb)].
Qed.

(** ** No surrogates *)

Definition whole (c : N) : Prop := c < 55296 \/ 57344 <= c.
Lemma whole_white w : Forall xwhite w -> Forall whole w.
Proof. apply Forall_impl. intros c. unfold xwhite, whole. lia. Qed.
Lemma whole_name n : xname n -> Forall whole n.
Proof.
  intros [c [r [-> [Hc Hr]]]]. constructor; [unfold xletter, whole in *; lia|]. eapply Forall_impl; [|exact Hr].
  intros d. unfold xletter, whole. lia.
Qed.
Lemma whole_ref n c : xref n c -> Forall whole n.
Proof. intros H. apply ref_chars in H. destruct H as [_ H]. eapply Forall_impl; [|exact H]. intros d. unfold whole. cbv beta. lia. Qed.
Ltac whole_tac := repeat match goal with
  | |- Forall whole [] => constructor
  | |- Forall whole (_ :: _) => constructor
  | |- Forall whole (_ ++ _) => apply Forall_app; split
  | |- Forall whole _ => assumption || (eapply whole_ref; eassumption) || (apply whole_white; assumption) || (apply whole_name; assumption)
  | |- whole _ => unfold whole, xchar, xwhite in *; lia
  end.
Lemma whole_value q t v : xvalue q t v -> Forall whole t.
Proof.
  induction 1 as [|c s v H1|c s v H1| | |n c s v H1]; whole_tac.
Qed.
Lemma whole_attributes a l : xattributes a l -> Forall whole a.
Proof.
  induction 1 as [|w0 n w1 w2 q t v s l Hw0 Hn0 Hn Hx Hw1 Hw2 Hq Hv Hs IH]; [constructor|]. assert (H := whole_value q t v Hv). whole_tac.
Qed.
Lemma whole_text t d : xtext t d -> Forall whole t.
Proof.
  induction 1 as [|c s v H1| | |n c s v H1]; whole_tac.
Qed.
Lemma whole_literal s : forallb (fun c => c <? 128) s = true -> Forall whole s.
Proof. intros H. rewrite forallb_forall in H. apply Forall_forall. intros c Hc. apply H in Hc. unfold whole. lia. Qed.
Lemma whole_element : (forall s e, xelement s e -> Forall whole s) /\ (forall c es, xnodes c es -> Forall whole c).
Proof.
  apply xelement_xnodes_ind; intros; rewrite ?Forall_app;
    repeat split; auto using whole_white, whole_name; try (eapply whole_attributes; eassumption); try (eapply whole_text; eassumption);
    try (apply whole_literal; reflexivity); constructor.
Qed.

Lemma whole_encodable s : Forall whole s -> existsb surrogate_half s = false.
Proof.
  induction 1 as [|c s Hc Hs IH]; [reflexivity|]. cbn [existsb]. rewrite IH. unfold surrogate_half, whole in *. lia.
Qed.

Lemma white_read w : Forall xwhite w -> exists evs, (forall r, (forall x, r <> 10 :: x) -> lexes (w ++ r) evs r)
  /\ forall evs' root, build (evs ++ evs') [] root = build evs' [] root.
Proof.
  enough (H : forall k w, (length w <= k)%nat -> Forall xwhite w -> exists evs, (forall r, (forall x, r <> 10 :: x) -> lexes (w ++ r) evs r)
    /\ forall evs' root, build (evs ++ evs') [] root = build evs' [] root) by (apply (H (length w)); lia).
  induction k as [|k IH]; intros [|c v] Hk Hw; try (exists []; split; [intros; apply lexes_nil|reflexivity]); [cbn [length] in Hk; lia|].
  cbn [length] in Hk. inversion Hw as [|? ? Hc Hv]; subst.
  destruct (N.eq_dec c 13) as [->|H13].
  - destruct v as [|d v].
    + exists [Data 10]. split; [|reflexivity]. intros r Hr. apply lexes_one; [|cbn [app length]; lia]. cbn [app]. unfold next_events.
      change (13 =? 60) with false. change (13 =? 38) with false. change (xml_char 13) with true. change (13 =? 13) with true. cbn [negb].
      destruct r as [|d r]; [reflexivity|]. destruct (N.eqb_spec d 10) as [->|]; [exfalso; exact (Hr r eq_refl)|reflexivity].
    + destruct (N.eq_dec d 10) as [->|Hd].
      * inversion Hv; subst. destruct (IH v) as [evs [K1 K2]]; [cbn [length] in Hk; lia|assumption|]. exists ([Data 10] ++ evs). split; [|intros; apply K2].
        intros r Hr. eapply lexes_trans; [|apply K1, Hr]. apply lexes_one; [reflexivity|cbn [app length]; lia].
      * destruct (IH (d :: v)) as [evs [H1 H2]]; [lia|assumption|]. exists ([Data 10] ++ evs). split; [|intros; apply H2].
        intros r Hr. eapply lexes_trans; [|apply H1, Hr]. apply lexes_one; [|cbn [app length]; lia]. cbn [app]. unfold next_events.
        change (13 =? 60) with false. change (13 =? 38) with false. change (xml_char 13) with true. change (13 =? 13) with true. cbn [negb].
        destruct (N.eqb_spec d 10); [contradiction|reflexivity].
  - destruct (IH v) as [evs [H1 H2]]; [lia|assumption|]. exists ([Data c] ++ evs). split.
    + intros r Hr. eapply lexes_trans; [|apply H1, Hr]. apply lexes_one; [|cbn [app length]; lia].
      apply lex_char; unfold xwhite, xchar in *; try lia. 
    + intros evs' root. cbn [app build]. replace (xml_white c) with true by (symmetry; apply white_iff; exact Hc). apply H2.
Qed.

(** @prop C64 The parser reads exactly the documents of the grammar of XML (as far as it is modelled), each as
    the element it writes: attributes with white space and line ends normalised and no attribute twice, line
    ends in texts as LF, references as the characters they stand for, tags that match, and white space only
    around the one element. *)
Lemma xml_grammar :
  forall s e, xml_parse s = Ok e <-> xdocument s e.
Proof.
  intros s e. unfold xml_parse. split.
  - destruct (existsb surrogate_half s); [discriminate|]. intros H.
    set (s1 := match s with [] => s | c :: r => if c =? 65279 then r else s end) in *.
    assert (E1 : exists mark, (mark = [] \/ mark = [65279]) /\ s = mark ++ s1).
    { unfold s1. destruct s as [|c r]; [exists []; auto|]. destruct (N.eqb_spec c 65279) as [->|]; [exists [65279]; auto|exists []; auto]. }
    set (s2 := if starts_with preamble s1 then skipn (length preamble) s1 else s1) in *.
    assert (E2 : exists decl, (decl = [] \/ decl = preamble) /\ s1 = decl ++ s2).
    { unfold s2. unfold starts_with. destruct (str_eqb_spec (firstn (length preamble) s1) preamble) as [X|_]; [|exists []; auto].
      exists preamble. split; [auto|]. rewrite <- X at 1. symmetry. apply firstn_skipn. }
    destruct E1 as [mark [M1 M2]], E2 as [decl [D1 D2]].
    destruct (events (length s2) s2) as [evs|] eqn:He; [|discriminate]. cbn [bind] in H.
    destruct (outer_sound _ _ _ _ He H) as [w [s' [w' [E [W1 [W2 W3]]]]]].
    exists mark, decl, w, s', w'. split; [rewrite M2, D2, E; reflexivity|]. repeat (split; [assumption|]). assumption.
  - intros [mark [decl [w [s' [w' [-> [M [D [W1 [W2 W3]]]]]]]]]].
    assert (Hhead : exists r', s' = 60 :: r' /\ (forall x, r' <> 63 :: x)).
    { destruct W2 as [n a l w0 Hn|n a l w0 t d c es w1 Hn]; eexists; (split; [reflexivity|]); intros x X;
        destruct Hn as [nc [nr [-> [Hnc _]]]]; cbn [app] in X; assert (nc = 63) by congruence; unfold xletter in Hnc; lia. }
    assert (Hnp : starts_with preamble (w ++ s' ++ w') = false).
    { unfold starts_with. destruct (str_eqb_spec (firstn (length preamble) (w ++ s' ++ w')) preamble) as [X|]; [exfalso|reflexivity].
      destruct W1 as [|c w Hc Hw].
      - destruct Hhead as [r' [-> Hr']]. cbn [app] in X. destruct (r' ++ w') as [|x y] eqn:Ex; [discriminate X|].
        assert (x = 63) by (cbn in X; congruence). subst x.
        destruct r' as [|x r']; [|cbn [app] in Ex; assert (x = 63) by congruence; subst; exact (Hr' r' eq_refl)].
        cbn [app] in Ex. rewrite Ex in W3. inversion W3 as [|? ? Hx _]; subst. unfold xwhite in Hx. lia.
      - cbn in X. assert (c = 60) by congruence. unfold xwhite in Hc. lia. }
    rewrite whole_encodable.
    2:{ rewrite !Forall_app. split; [destruct M as [-> | ->]; whole_tac|].
        split; [destruct D as [-> | ->]; [constructor|apply whole_literal; reflexivity]|].
        split; [apply whole_white; exact W1|]. split; [eapply (proj1 whole_element); exact W2|apply whole_white; exact W3]. }
    cbv iota. set (body := decl ++ w ++ s' ++ w').
    assert (Hs1 : match mark ++ body with c :: r => if c =? 65279 then r else mark ++ body | [] => mark ++ body end = body).
    { destruct M as [-> | ->]; [|reflexivity]. cbn [app].
      assert (exists c r, body = c :: r /\ c <> 65279) as [c [r [-> Hc]]].
      { unfold body. destruct D as [-> | ->]; [|eexists _, _; split; [reflexivity|discriminate]]. cbn [app].
        destruct W1 as [|c w Hc Hw]; [destruct Hhead as [r' [-> _]]; eexists _, _; split; [reflexivity|discriminate]|].
        eexists _, _; split; [reflexivity|]. unfold xwhite in Hc. lia. }
      destruct (N.eqb_spec c 65279); [contradiction|reflexivity]. }
    match goal with |- context [starts_with preamble ?m] => replace m with body by (symmetry; exact Hs1) end.
    assert (Hs2 : (if starts_with preamble body then skipn (length preamble) body else body) = w ++ s' ++ w').
    { unfold body. destruct D as [-> | ->]; [cbn [app]; rewrite Hnp; reflexivity|].
      change ($"<?xml version=" ++ [34] ++ $"1.0" ++ [34] ++ $"?>") with preamble.
      unfold starts_with. rewrite firstn_app, Nat.sub_diag, firstn_all. cbn [firstn]. rewrite app_nil_r, str_eqb_refl.
      rewrite skipn_app, Nat.sub_diag, skipn_all. reflexivity. }
    rewrite Hs2.
    destruct (white_read w W1) as [ev1 [A1 A2]]. destruct (proj1 element_read s' e W2) as [ev2 [B1 B2]]. destruct (white_read w' W3) as [ev3 [C1 C2]].
    assert (L : lexes (w ++ s' ++ w') (ev1 ++ ev2 ++ ev3) []).
    { eapply lexes_trans; [apply A1|eapply lexes_trans; [apply B1|]].
      - intros x X. destruct Hhead as [r' [-> _]]. cbn [app] in X. congruence.
      - rewrite <- (app_nil_r w') at 1. apply C1. discriminate. }
    rewrite (lexes_all _ _ L). cbn [bind]. rewrite A2, B2 by reflexivity. cbv iota. rewrite <- (app_nil_r ev3), C2. reflexivity.
Qed.
(** @example
Example C64_grammar_example :
  xdocument ($"<a x='1" ++ [10] ++ $"2'>t&#x41;<b/>z</a >" ++ [13; 10])
    (Elem $"a" [($"x", $"1 2")] (Some $"tA") [Elem $"b" [] None []])
  /\ ~ xdocument $"<a x='1' x='2'/>" (Elem $"a" [($"x", $"1"); ($"x", $"2")] None [])
  /\ ~ (exists e, xdocument $"<a>]]></a>" e).
Proof.
  split; [apply C64_xml_grammar; reflexivity|]. split; [intros H; apply C64_xml_grammar in H; discriminate H|].
  intros [e H]. apply C64_xml_grammar in H. discriminate H.
Qed.
@end *)
