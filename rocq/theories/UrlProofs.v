(** * The URL encoded format (C61). *)
(* @imports Spec Demo UrlSpec *)
From Coq Require Import ZifyBool ZifyN ZifyNat Permutation.
From Verif Require Import PyBaseFacts Induct Spec Demo ProcessFacts NumFacts StructFacts StProofs UrlSpec.
Ltac Zify.zify_post_hook ::= Z.div_mod_to_equations.

(** ** UTF-8 *)

Lemma some_inj {A} (a b : A) : Some a = Some b -> a = b.
Proof. congruence. Qed.

Lemma utf8_bytes c bs : utf8 c = Some bs -> Forall (fun b => b < 256)%N bs.
Proof.
  unfold utf8. intros H. repeat (destruct (_ : bool) eqn:? in H; [|]); try discriminate; apply some_inj in H; subst bs;
    repeat (apply Forall_cons; [lia|]); apply Forall_nil.
Qed.

Lemma decode_one b r : (b < 128)%N -> decode (b :: r) = b :: decode r.
Proof. intros H. cbn [decode]. assert (Hb : (b <? 128)%N = true) by lia. rewrite Hb. reflexivity. Qed.

Lemma decode_two b c r v lo hi : (128 <= b)%N -> lead b = Some (1%N, v, lo, hi) -> (lo <= c <= hi)%N ->
  decode (b :: c :: r) = (v * 64 + (c - 128))%N :: decode r.
Proof.
  intros H1 H2 H3. cbn [decode]. assert (Hb : (b <? 128)%N = false) by lia. rewrite Hb, H2.
  assert (Hc : ((lo <=? c) && (c <=? hi))%N = true) by lia. rewrite Hc. reflexivity.
Qed.

Lemma decode_three b c d r v lo hi : (128 <= b)%N -> lead b = Some (2%N, v, lo, hi) -> (lo <= c <= hi)%N -> (128 <= d <= 191)%N ->
  decode (b :: c :: d :: r) = ((v * 64 + (c - 128)) * 64 + (d - 128))%N :: decode r.
Proof.
  intros H1 H2 H3 H4. cbn [decode]. assert (Hb : (b <? 128)%N = false) by lia. rewrite Hb, H2.
  assert (Hc : ((lo <=? c) && (c <=? hi))%N = true) by lia. assert (Hd : ((128 <=? d) && (d <=? 191))%N = true) by lia.
  rewrite Hc, Hd. reflexivity.
Qed.

Lemma decode_four b c d e r v lo hi : (128 <= b)%N -> lead b = Some (3%N, v, lo, hi) -> (lo <= c <= hi)%N -> (128 <= d <= 191)%N ->
  (128 <= e <= 191)%N ->
  decode (b :: c :: d :: e :: r) = (((v * 64 + (c - 128)) * 64 + (d - 128)) * 64 + (e - 128))%N :: decode r.
Proof.
  intros H1 H2 H3 H4 H5. cbn [decode]. assert (Hb : (b <? 128)%N = false) by lia. rewrite Hb, H2.
  assert (Hc : ((lo <=? c) && (c <=? hi))%N = true) by lia. assert (Hd : ((128 <=? d) && (d <=? 191))%N = true) by lia.
  assert (He : ((128 <=? e) && (e <=? 191))%N = true) by lia. rewrite Hc, Hd, He. reflexivity.
Qed.

Ltac leads := unfold lead; repeat match goal with |- context [if ?b then _ else _] => destruct b eqn:?; [try (exfalso; lia)|try (exfalso; lia)] end.

Lemma decode_utf8 c bs r : utf8 c = Some bs -> decode (bs ++ r) = c :: decode r.
Proof.
  unfold utf8. intros H.
  destruct (c <? 128)%N eqn:H1; [|destruct (c <? 2048)%N eqn:H2; [|destruct ((55296 <=? c) && (c <? 57344))%N eqn:H3;
    [|destruct (c <? 65536)%N eqn:H4; [|destruct (c <? 1114112)%N eqn:H5]]]]; try discriminate; apply some_inj in H; subst bs; cbn [app].
  - apply decode_one. lia.
  - erewrite decode_two; [| |leads; reflexivity|lia]; [|lia]. f_equal. lia.
  - set (b := (224 + c / 4096)%N). assert (Hb : b = (224 + c / 4096)%N) by reflexivity. clearbody b.
    destruct (N.eq_dec b 224) as [E1|E1]; [|destruct (N.eq_dec b 237) as [E2|E2]].
    + erewrite (decode_three _ _ _ _ 0 160 191); [f_equal; lia|lia|leads; reflexivity|lia|lia].
    + erewrite (decode_three _ _ _ _ 13 128 159); [f_equal; lia|lia|leads; reflexivity|lia|lia].
    + erewrite (decode_three _ _ _ _ (b - 224) 128 191); [f_equal; lia|lia|leads; reflexivity|lia|lia].
  - set (b := (240 + c / 262144)%N). assert (Hb : b = (240 + c / 262144)%N) by reflexivity. clearbody b.
    destruct (N.eq_dec b 240) as [E1|E1]; [|destruct (N.eq_dec b 244) as [E2|E2]].
    + erewrite (decode_four _ _ _ _ _ 0 144 191); [f_equal; lia|lia|leads; reflexivity|lia|lia|lia].
    + erewrite (decode_four _ _ _ _ _ 4 128 143); [f_equal; lia|lia|leads; reflexivity|lia|lia|lia].
    + erewrite (decode_four _ _ _ _ _ (b - 240) 128 191); [f_equal; lia|lia|leads; reflexivity|lia|lia|lia].
Qed.

Lemma utf8_unicode c : (c < 1114112)%N -> ~ (55296 <= c < 57344)%N -> exists bs, utf8 c = Some bs.
Proof.
  intros H1 H2. unfold utf8. destruct (c <? 128)%N; [eauto|]. destruct (c <? 2048)%N; [eauto|].
  destruct ((55296 <=? c) && (c <? 57344))%N eqn:H3; [lia|]. destruct (c <? 65536)%N; [eauto|].
  destruct (c <? 1114112)%N eqn:H5; [eauto|lia].
Qed.

(** ** Quoting *)

Lemma hex_digit_cases n : (n < 16)%N -> (48 <= hex_digit n <= 57)%N \/ (65 <= hex_digit n <= 70)%N.
Proof. intros H. unfold hex_digit. destruct (n <? 10)%N eqn:E; lia. Qed.

Lemma unhex_hex n : (n < 16)%N -> unhex (hex_digit n) = Some n.
Proof.
  intros H. unfold unhex, hex_digit, is_digit. destruct (n <? 10)%N eqn:E.
  - destruct ((48 <=? 48 + n) && (48 + n <=? 57))%N eqn:E1; [f_equal; lia|lia].
  - destruct ((48 <=? 55 + n) && (55 + n <=? 57))%N eqn:E1; [lia|].
    destruct ((65 <=? 55 + n) && (55 + n <=? 70))%N eqn:E2; [f_equal; lia|lia].
Qed.

Lemma url_safe_cases c : url_safe c = true -> (48 <= c <= 57)%N \/ (65 <= c <= 90)%N \/ (97 <= c <= 122)%N \/ c = 95%N \/ c = 46%N \/ c = 45%N \/ c = 126%N.
Proof. unfold url_safe, is_digit. intros H. lia. Qed.

Lemma plus_quote_byte b : (b < 256)%N -> plus_spaces (quote_byte b) = quote_byte b.
Proof.
  intros H. unfold plus_spaces, quote_byte. cbn [map]. 
  assert (H1 := hex_digit_cases (b / 16)). assert (H2 := hex_digit_cases (b mod 16)).
  assert (E1 : (hex_digit (b / 16) =? 43)%N = false) by lia. assert (E2 : (hex_digit (b mod 16) =? 43)%N = false) by lia.
  rewrite E1, E2. reflexivity.
Qed.

Lemma unquote_byte b acc rest : (b < 256)%N -> unquote 0 acc (quote_byte b ++ rest) = unquote 0 (b :: acc) rest.
Proof.
  intros H. unfold quote_byte. cbn [app unquote percent]. rewrite N.eqb_refl, !unhex_hex by lia.
  replace (16 * (b / 16) + b mod 16)%N with b by lia. reflexivity.
Qed.

Lemma unquote_bytes bs acc rest : Forall (fun b => b < 256)%N bs ->
  unquote 0 acc (flat_map quote_byte bs ++ rest) = unquote 0 (rev bs ++ acc) rest.
Proof.
  revert acc. induction bs as [|b bs IH]; intros acc H; [reflexivity|]. inversion H; subst. cbn [flat_map rev].
  rewrite <- app_assoc, unquote_byte, IH, <- app_assoc by assumption. reflexivity.
Qed.

Lemma plus_bytes bs : Forall (fun b => b < 256)%N bs -> plus_spaces (flat_map quote_byte bs) = flat_map quote_byte bs.
Proof.
  induction bs as [|b bs IH]; intros H; [reflexivity|]. inversion H; subst. cbn [flat_map]. unfold plus_spaces in *. rewrite map_app.
  rewrite IH by assumption. f_equal. apply plus_quote_byte. assumption.
Qed.

Lemma quote_plus_ok s : unicode s -> exists q bs,
  quote_plus s = Some q
  /\ (forall acc rest, unquote 0 acc (plus_spaces q ++ rest) = unquote 0 (rev bs ++ acc) rest)
  /\ (forall r, decode (bs ++ r) = s ++ decode r)
  /\ (s <> [] -> q <> [])
  /\ (forall c, In c q -> url_safe c = true \/ c = 43%N \/ c = 37%N).
Proof.
  induction s as [|c s IH]; intros H.
  - exists [], []. cbn. repeat split; auto; intros x [].
  - destruct IH as [q [bs [H1 [H2 [H3 [_ H4]]]]]]; [intros d Hd; apply H; right; exact Hd|].
    assert (Hone : exists q1 b1, (if url_safe c then Some [c] else if (c =? 32)%N then Some [43%N]
             else option_map (flat_map quote_byte) (utf8 c)) = Some q1
      /\ (forall acc rest, unquote 0 acc (plus_spaces q1 ++ rest) = unquote 0 (rev b1 ++ acc) rest)
      /\ (forall r, decode (b1 ++ r) = c :: decode r) /\ q1 <> []
      /\ (forall d, In d q1 -> url_safe d = true \/ d = 43%N \/ d = 37%N)).
    { destruct (url_safe c) eqn:Hs.
      - exists [c], [c]. split; [reflexivity|]. assert (Hc := url_safe_cases c Hs). split; [|split; [|split; [discriminate|]]].
        + intros acc rest. unfold plus_spaces. cbn [map app rev]. assert (E1 : (c =? 43)%N = false) by lia. rewrite E1. cbn [unquote].
          assert (Hp : percent (c :: rest) = None) by (destruct rest as [|x [|y rest]]; cbn [percent]; try reflexivity; assert (E2 : (c =? 37)%N = false) by lia; rewrite E2; reflexivity).
          rewrite Hp. assert (E3 : (c <? 128)%N = true) by lia. rewrite E3. reflexivity.
        + intros r. apply decode_one. lia.
        + intros d [<-|[]]. left. exact Hs.
      - destruct (N.eqb_spec c 32) as [->|Hn].
        + exists [43%N], [32%N]. split; [reflexivity|]. split; [|split; [|split; [discriminate|]]].
          * intros acc rest. unfold plus_spaces. cbn [map app rev N.eqb Pos.eqb]. cbn [unquote].
            assert (Hp : percent (32%N :: rest) = None) by (destruct rest as [|x [|y rest]]; reflexivity).
            rewrite Hp. reflexivity.
          * intros r. apply decode_one. lia.
          * intros d [<-|[]]. auto.
        + destruct (H c (or_introl eq_refl)) as [K1 K2]. destruct (utf8_unicode c K1 K2) as [b1 Hb]. rewrite Hb. cbn [option_map].
          assert (Hlt := utf8_bytes c b1 Hb). exists (flat_map quote_byte b1), b1. split; [reflexivity|]. split; [|split; [|split]].
          * intros acc rest. rewrite plus_bytes by exact Hlt. apply unquote_bytes. exact Hlt.
          * intros r. apply decode_utf8, Hb.
          * destruct b1 as [|b b1]; [|discriminate]. assert (Hd := decode_utf8 c [] [] Hb). discriminate.
          * intros d Hd. apply in_flat_map in Hd. destruct Hd as [b [Hin Hd]]. rewrite Forall_forall in Hlt. specialize (Hlt b Hin). cbn beta in Hlt.
            assert (G1 := hex_digit_cases (b / 16)). assert (G2 := hex_digit_cases (b mod 16)).
            unfold quote_byte in Hd. destruct Hd as [<-|[<-|[<-|[]]]]; [auto| |]; left; unfold url_safe, is_digit; lia. }
    destruct Hone as [q1 [b1 [G1 [G2 [G3 [G4 G5]]]]]]. exists (q1 ++ q), (b1 ++ bs). split; [|split; [|split; [|split]]].
    + cbn [quote_plus]. rewrite G1, H1. reflexivity.
    + intros acc rest. unfold plus_spaces in *. rewrite map_app, <- app_assoc, G2, H2, rev_app_distr, <- app_assoc. reflexivity.
    + intros r. rewrite <- app_assoc, G3, H3. reflexivity.
    + intros _ Hq. apply app_eq_nil in Hq. apply G4, Hq.
    + intros d Hd. apply in_app_iff in Hd. destruct Hd; auto.
Qed.

Lemma unquote_quote s q : unicode s -> quote_plus s = Some q -> unquote 0 [] (plus_spaces q) = s.
Proof.
  intros H Hq. destruct (quote_plus_ok s H) as [q' [bs [H1 [H2 [H3 _]]]]]. rewrite H1 in Hq. injection Hq as ->.
  specialize (H2 [] []). rewrite app_nil_r in H2. rewrite H2. cbn [unquote]. rewrite app_nil_r, rev_involutive.
  specialize (H3 []). rewrite app_nil_r in H3. rewrite H3. cbn [decode]. apply app_nil_r.
Qed.

(** ** The texts of values *)

Lemma ascii_unicode s : forallb (fun c => c <? 128)%N s = true -> unicode s.
Proof. rewrite forallb_forall. intros H c Hc. specialize (H c Hc). lia. Qed.

Lemma unicode_app a b : unicode a -> unicode b -> unicode (a ++ b).
Proof. intros Ha Hb c Hc. apply in_app_iff in Hc. destruct Hc; auto. Qed.

Lemma unicode_join sep parts : unicode sep -> (forall p, In p parts -> unicode p) -> unicode (join sep parts).
Proof. intros Hs Hp c Hc. destruct (join_In _ _ _ Hc) as [H|[p [H1 H2]]]; [exact (Hs c H)|exact (Hp p H1 c H2)]. Qed.

Lemma escape_unicode s : unicode s -> unicode (escape s).
Proof.
  induction s as [|c s IH]; intros H; [exact H|]. cbn [escape]. assert (Hs : unicode (escape s)) by (apply IH; intros d Hd; apply H; right; exact Hd).
  assert (Hc := H c (or_introl eq_refl)).
  destruct (is_bracket c); intros d [<-|Hd]; try (apply Hs; exact Hd); try exact Hc; try lia. destruct Hd as [<-|Hd]; [exact Hc|exact (Hs d Hd)].
Qed.

Lemma clean_unicode E v : clean E false v -> unicode_value v -> exists t, st_serialize E v = Ok t /\ unicode t.
Proof.
  induction v as [v IH] using val_ind'. intros Hc Hu. inversion Hc as [b|Hx|z Hn|s Hp|l Hl Hne|o l Hnd Hk Hv]; subst.
  - destruct b; eexists; (split; [reflexivity|]); apply ascii_unicode; reflexivity.
  - eexists; (split; [reflexivity|]); apply ascii_unicode; reflexivity.
  - discriminate.
  - exists (escape s). split; [reflexivity|]. inversion Hu; subst. apply escape_unicode. assumption.
  - inversion Hu as [| | |? Hul|]; subst.
    assert (Hgo : exists parts, (fix go (l : list val) : res (list str) :=
                     match l with
                     | [] => Ok []
                     | x :: l' => do t <- st_serialize E x; do r <- go l'; Ok (t :: r)
                     end) l = Ok parts /\ forall p, In p parts -> unicode p).
    { clear Hc Hne Hu. induction l as [|x l IHl]; [exists []; split; [reflexivity|intros p []]|].
      destruct (IH x (or_introl eq_refl) (Hl x (or_introl eq_refl)) (Hul x (or_introl eq_refl))) as [t [Ht Hut]].
      destruct IHl as [parts [Hp1 Hp2]].
      - intros w Hw. apply IH. right. exact Hw.
      - intros w Hw. apply Hl. right. exact Hw.
      - intros w Hw. apply Hul. right. exact Hw.
      - exists (t :: parts). rewrite Ht. cbn [bind]. rewrite Hp1. split; [reflexivity|]. intros p [<-|Hp]; auto. }
    destruct Hgo as [parts [Hgo Hparts]]. cbn [st_serialize]. rewrite Hgo. cbn [bind]. eexists. split; [reflexivity|].
    apply unicode_app; [apply ascii_unicode; reflexivity|]. apply unicode_app; [|apply ascii_unicode; reflexivity].
    apply unicode_join; [apply ascii_unicode; reflexivity|exact Hparts].
  - inversion Hu as [| | | |? ? Hul]; subst.
    assert (Hgo : exists parts, (fix go (l : list (val * val)) : res (list (val * val)) :=
                     match l with
                     | [] => Ok []
                     | (k, x) :: l' => do t <- st_serialize E x; do r <- go l'; Ok ((k, VStr t) :: r)
                     end) l = Ok (map (fun kv => (VStr (fst kv), snd kv)) parts)
              /\ forall k x, In (k, x) parts -> unicode k /\ exists t, x = VStr t /\ unicode t).
    { clear Hc Hu Hnd. induction l as [|[k x] l IHl]; [exists []; split; [reflexivity|intros k x []]|].
      destruct (IH x) as [t [Ht Hut]].
      { cbn [subvals flat_map fst snd]. right. left. reflexivity. }
      { eapply Hv. left. reflexivity. }
      { eapply Hul. left. reflexivity. }
      destruct IHl as [parts [Hp1 Hp2]].
      - intros w Hw. apply IH. cbn [subvals flat_map fst snd]. right. right. exact Hw.
      - intros k' w Hw. eapply Hk. right. exact Hw.
      - intros k' w Hw. eapply Hv. right. exact Hw.
      - intros k' w Hw. eapply Hul. right. exact Hw.
      - destruct (Hk k x (or_introl eq_refl)) as [s [-> _]]. destruct (Hul _ _ (or_introl eq_refl)) as [Hus _].
        inversion Hus; subst.
        exists ((s, VStr t) :: parts). rewrite Ht. cbn [bind]. rewrite Hp1. split; [reflexivity|].
        intros k' y [[= <- <-]|Hp]; [eauto|]. exact (Hp2 _ _ Hp). }
    destruct Hgo as [parts [Hgo Hparts]]. cbn [st_serialize]. rewrite Hgo. cbn [bind]. unfold sorted_items. rewrite keyed_strs. cbn [bind].
    eexists. split; [reflexivity|].
    apply unicode_app; [apply ascii_unicode; reflexivity|]. apply unicode_app; [|apply ascii_unicode; reflexivity].
    apply unicode_join; [apply ascii_unicode; reflexivity|]. intros p Hp. rewrite map_map in Hp. apply in_map_iff in Hp. destruct Hp as [[k x] [<- Hin]].
    assert (Hin' := Permutation_in _ (Permutation_sym (sort_items_perm parts)) Hin). destruct (Hparts k x Hin') as [K1 [t [-> K2]]].
    cbn [fst snd text_of]. apply unicode_app; [exact K1|]. apply unicode_app; [apply ascii_unicode; reflexivity|exact K2].
Qed.

(** ** Queries *)

Lemma split_equals_app k v : ~ In 61%N k -> split_equals (k ++ 61%N :: v) = Some (k, v).
Proof.
  induction k as [|c k IH]; intros H; cbn [app split_equals]; [reflexivity|].
  destruct (N.eqb_spec c 61) as [->|Hn]; [exfalso; apply H; left; reflexivity|]. rewrite IH; [reflexivity|]. intros Hin. apply H. right. exact Hin.
Qed.

Lemma safe_not c x : url_safe c = true \/ c = 43%N \/ c = 37%N -> In x [38; 59; 61]%N -> c <> x.
Proof. unfold url_safe, is_digit. cbn [In]. lia. Qed.

Lemma url_pairs_ok (l : list (str * str)) :
  (forall k v, In (k, v) l -> unicode k /\ unicode v /\ v <> []) ->
  exists parts, url_pairs l = Ok parts
    /\ (forall p, In p parts -> forall c, In c p -> query_char c /\ c <> 38%N /\ c <> 59%N)
    /\ flat_map (fun piece =>
         match split_equals piece with
         | None | Some (_, []) => []
         | Some (k, v) => [(unquote 0 [] (plus_spaces k), unquote 0 [] (plus_spaces v))]
         end) parts = l.
Proof.
  induction l as [|[k v] l IH]; intros H; [exists []; split; [reflexivity|]; split; [intros p []|reflexivity]|].
  destruct (H k v (or_introl eq_refl)) as [H1 [H2 H3]].
  destruct IH as [parts [G1 [G2 G3]]]; [intros k' v' Hin; apply H; right; exact Hin|].
  destruct (quote_plus_ok k H1) as [a [? [K1 [_ [_ [_ K2]]]]]]. destruct (quote_plus_ok v H2) as [b [? [L1 [_ [_ [L2 L3]]]]]].
  exists ((a ++ $"=" ++ b) :: parts). cbn [url_pairs]. rewrite K1, L1, G1. split; [reflexivity|]. split.
  - intros p [<-|Hp]; [|exact (G2 p Hp)].
    assert (Hsafe : forall c, url_safe c = true \/ c = 43%N \/ c = 37%N -> query_char c /\ c <> 38%N /\ c <> 59%N).
    { intros c Hc. split; [|split; apply safe_not; cbn; auto]. unfold query_char. destruct Hc as [Hc|[->| ->]]; [|cbn; auto 20|cbn; auto 20].
      apply url_safe_cases in Hc. decompose [or] Hc; auto; subst; cbn; auto 20. }
    intros c Hc. apply in_app_iff in Hc. destruct Hc as [Hc|Hc]; [apply Hsafe, K2, Hc|]. apply in_app_iff in Hc. destruct Hc as [[<-|[]]|Hc]; [|apply Hsafe, L3, Hc].
    split; [unfold query_char; cbn; auto 20|]. split; discriminate.
  - cbn [flat_map]. change (a ++ $"=" ++ b) with (a ++ 61%N :: b). rewrite split_equals_app.
    + destruct b as [|b0 b'] eqn:Hb; [exfalso; apply L2; auto|]. rewrite <- Hb in *. rewrite (unquote_quote k a H1 K1), (unquote_quote v b H2 L1).
      cbn [app]. rewrite G3. reflexivity.
    + intros Hin. apply K2 in Hin. apply (safe_not 61%N 61%N); cbn; auto.
Qed.

Lemma parse_qsl_join semicolons (l : list (str * str)) parts : url_pairs l = Ok parts ->
  (forall k v, In (k, v) l -> unicode k /\ unicode v /\ v <> []) -> parse_qsl semicolons (join $"&" parts) = l.
Proof.
  intros Hp H. destruct (url_pairs_ok l H) as [parts' [G1 [G2 G3]]]. rewrite G1 in Hp. injection Hp as ->.
  unfold parse_qsl. destruct parts as [|p0 parts0] eqn:He.
  - rewrite <- G3. destruct semicolons; reflexivity.
  - rewrite <- He in *. change $"&" with [38%N]. rewrite split_join.
    + replace (flat_map (fun part => if semicolons then split_on 59 part else [part]) parts) with parts; [exact G3|].
      clear - G2. induction parts as [|p parts IH]; [reflexivity|]. cbn [flat_map]. rewrite <- IH by (intros q Hq; apply G2; right; exact Hq).
      destruct semicolons; [|reflexivity]. rewrite split_on_none; [reflexivity|]. intros Hin. destruct (G2 p (or_introl eq_refl) _ Hin) as [_ [_ Hn]]. congruence.
    + rewrite He. discriminate.
    + rewrite Forall_forall. intros p Hin H38. destruct (G2 p Hin _ H38) as [_ [Hn _]]. congruence.
Qed.

Lemma url_read_ok E (l : list (str * str)) (ws : list val) acc :
  Forall2 (fun kt w => st_unserialize E false (snd kt) = Ok w) l ws -> NoDup (map fst l) ->
  (forall x, In x (map fst acc) -> exists s, x = VStr s /\ ~ In s (map fst l)) ->
  url_read E l acc = Ok (acc ++ combine (map (fun kt => VStr (fst kt)) l) ws).
Proof.
  intros H. revert acc. induction H as [|[k t] w l ws Ht Hrest IH]; intros acc Hd Ha; cbn [url_read].
  - rewrite app_nil_r. reflexivity.
  - cbn [snd] in Ht. rewrite Ht. cbn [bind]. cbn [map fst] in Hd. inversion Hd as [|? ? Hn Hd']; subst. rewrite dset_new.
    + rewrite IH; [rewrite <- app_assoc; reflexivity|exact Hd'|]. intros x Hx. rewrite map_app in Hx. apply in_app_iff in Hx.
      destruct Hx as [Hx|[<-|[]]]; [|exists k; split; [reflexivity|exact Hn]]. destruct (Ha x Hx) as [s [-> Hs]]. exists s. split; [reflexivity|]. intros Hin. apply Hs. right. exact Hin.
    + apply dget_str_None; [intros x Hx; destruct (Ha x Hx) as [s [-> _]]; eauto|]. intros Hin. destruct (Ha _ Hin) as [s [[= <-] Hs]].
      apply Hs. left. reflexivity.
Qed.

Lemma form_value_reads E v : form_value E v -> unicode_value v ->
  exists t w, st_serialize E v = Ok t /\ unicode t /\ t <> [] /\ st_unserialize E false t = Ok w /\ reordered v w.
Proof.
  intros [[s [-> [Hne Hk]]]|[Hc Hne]] Hu.
  - destruct (proj1 (structuredtext_single_text_partial E s) Hne Hk) as [t [H1 H2]]. exists t, (VStr s). split; [exact H1|].
    split; [|split; [|split; [exact H2|apply reordered_scalar; exact I]]].
    + cbn [st_serialize] in H1. injection H1 as <-. apply escape_unicode. inversion Hu; subst. assumption.
    + intros ->. discriminate.
  - destruct (clean_unicode E v Hc Hu) as [t [H1 H2]]. destruct (structuredtext_roundtrip E false v Hc Hne) as [t' [w [G1 [G2 G3]]]].
    rewrite H1 in G1. injection G1 as <-. exists t, w. split; [exact H1|]. split; [exact H2|]. split; [|split; [exact G2|exact G3]].
    intros ->. discriminate.
Qed.

(** @prop C61 A dict of names and values that are texts (not empty, not a keyword, of any characters
    that have an encoding) or clean structures is read back as it was written, in the same order,
    whether or not semicolons separate. *)
Lemma urlencoded_roundtrip :
  forall E semicolons o l,
    NoDup (map fst l) ->
    (forall k v, In (k, v) l -> (exists s, k = VStr s /\ unicode s) /\ form_value E v /\ unicode_value v) ->
    exists t m, url_serialize E (VDict o l) = Ok t
      /\ url_unserialize E semicolons (VStr t) = Ok (VDict false m)
      /\ Forall2 (fun kv kw => fst kw = fst kv /\ reordered (snd kv) (snd kw)) l m.
Proof.
  intros E semicolons o l Hnd Hl.
  assert (Hdata : exists data ws, (fix go (l : list (val * val)) : res (list (str * str)) :=
                    match l with
                    | [] => Ok []
                    | (k, x) :: l' => do t <- st_serialize E x; do r <- go l'; Ok ((text_of E k, t) :: r)
                    end) l = Ok data
     /\ map fst l = map (fun kt => VStr (fst kt)) data
     /\ (forall k v, In (k, v) data -> unicode k /\ unicode v /\ v <> [])
     /\ Forall2 (fun kt w => st_unserialize E false (snd kt) = Ok w) data ws
     /\ Forall2 (fun kv w => reordered (snd kv) w) l ws).
  { clear Hnd. induction l as [|[k x] l IH]; [exists [], []; split; [reflexivity|]; split; [reflexivity|]; split; [intros k v []|split; constructor]|].
    destruct (Hl k x (or_introl eq_refl)) as [[s [-> Hs]] [Hv Hu]].
    destruct (form_value_reads E x Hv Hu) as [t [w [H1 [H2 [H3 [H4 H5]]]]]].
    destruct IH as [data [ws [G1 [G2 [G3 [G4 G5]]]]]]; [intros k v Hin; apply Hl; right; exact Hin|].
    exists ((s, t) :: data), (w :: ws). rewrite H1. cbn [bind]. rewrite G1. split; [reflexivity|]. split; [cbn [map fst]; rewrite G2; reflexivity|].
    split; [intros k v [[= <- <-]|Hin]; [auto|exact (G3 k v Hin)]|]. split; constructor; assumption. }
  destruct Hdata as [data [ws [G1 [G2 [G3 [G4 G5]]]]]].
  destruct (url_pairs_ok data G3) as [parts [P1 _]].
  exists (join $"&" parts), (combine (map (fun kt => VStr (fst kt)) data) ws). split; [|split].
  - cbn [url_serialize]. rewrite G1. cbn [bind]. rewrite P1. reflexivity.
  - cbn [url_unserialize]. rewrite (parse_qsl_join semicolons data parts P1 G3), (url_read_ok E data ws); [reflexivity|exact G4| |intros x []].
    rewrite G2 in Hnd. rewrite <- (map_map fst VStr) in Hnd. apply NoDup_map_inv in Hnd. exact Hnd.
  - rewrite <- G2. clear - G5. induction G5 as [|[k v] w l ws H _ IH]; cbn [map combine]; constructor; [|exact IH]. split; [reflexivity|exact H].
Qed.

(** @example
Definition l61 := [(VStr $"full name", VStr $"A&B; {x}=100%"); (VStr (233%N :: $"k"), VList [VStr (8364%N :: []); VStr $"b"; VNone])].
Example C61_example :
  url_serialize env0 (VDict false l61) = Ok $"full+name=A%26B%3B+%5C%7Bx%5C%7D%3D100%25&%C3%A9k=%5B%E2%82%AC%2Cb%2Cnull%5D"
  /\ url_unserialize env0 true (VStr $"full+name=A%26B%3B+%5C%7Bx%5C%7D%3D100%25&%C3%A9k=%5B%E2%82%AC%2Cb%2Cnull%5D") = Ok (VDict false l61).
Proof. vm_compute. auto. Qed.
Example C61_meets :
  NoDup (map fst l61)
  /\ forall k v, In (k, v) l61 -> (exists s, k = VStr s /\ unicode s) /\ form_value env0 v /\ unicode_value v.
Proof.
  assert (Hu : forall s, forallb (fun c => (c <? 55296)%N) s = true -> unicode s).
  { intros s Hs c Hc. rewrite forallb_forall in Hs. specialize (Hs c Hc). apply N.ltb_lt in Hs. split; [eapply N.lt_trans; [exact Hs|reflexivity]|].
    intros [H1 _]. apply N.lt_nge in Hs. contradiction. }
  assert (Hp : forall s, s = 8364%N :: [] \/ s = $"b" -> plain_text env0 false s).
  { intros s [->| ->]; (split; [intros c [<-|[]]; cbn; intuition discriminate|]); (split; [intros [n [=]]|]); (split; [vm_compute; intuition discriminate|discriminate]). }
  split; [repeat constructor; cbn; intuition discriminate|].
  intros k v [[= <- <-]|[[= <- <-]|[]]]; (split; [eexists; split; [reflexivity|apply Hu; reflexivity]|]); split.
  - left. eexists. split; [reflexivity|]. split; [discriminate|]. vm_compute. intuition discriminate.
  - constructor. apply Hu. reflexivity.
  - right. split; [|discriminate]. apply clean_list; [|discriminate]. intros v [<-|[<-|[<-|[]]]]; constructor; apply Hp; auto.
  - apply uv_list. intros v [<-|[<-|[<-|[]]]]; constructor; apply Hu; reflexivity.
Qed.
@end *)

(** @prop C61 The text written has only the characters allowed in a query. *)
Lemma urlencoded_query_chars :
  forall E o l t c,
    (forall k v, In (k, v) l -> (exists s, k = VStr s /\ unicode s) /\ form_value E v /\ unicode_value v) ->
    url_serialize E (VDict o l) = Ok t -> In c t -> query_char c.
Proof.
  intros E o l t c Hl Ht Hc. cbn [url_serialize] in Ht. apply bind_Ok in Ht. destruct Ht as [data [Hd Ht]].
  apply bind_Ok in Ht. destruct Ht as [parts [Hp Ht]]. injection Ht as <-.
  assert (Hdata : forall k v, In (k, v) data -> unicode k /\ unicode v /\ v <> []).
  { clear Hp Hc parts. revert data Hd. induction l as [|[k x] l IH]; intros data Hd; [injection Hd as <-; intros k v []|].
    apply bind_Ok in Hd. destruct Hd as [tx [Htx Hd]]. apply bind_Ok in Hd. destruct Hd as [r [Hr Hd]]. injection Hd as <-.
    destruct (Hl k x (or_introl eq_refl)) as [[s [-> Hs]] [Hv Hu]]. destruct (form_value_reads E x Hv Hu) as [tx' [w [H1 [H2 [H3 _]]]]].
    rewrite H1 in Htx. injection Htx as <-. intros k v [[= <- <-]|Hin]; [auto|]. eapply IH; [|exact Hr|exact Hin]. intros k' v' Hin'. apply Hl. right. exact Hin'. }
  destruct (url_pairs_ok data Hdata) as [parts' [P1 [P2 _]]]. rewrite P1 in Hp. injection Hp as ->.
  destruct (join_In _ _ _ Hc) as [[<-|[]]|[p [Hin Hc']]]; [|apply (P2 p Hin c Hc')]. unfold query_char. cbn. auto 20.
Qed.

(** @example
Example C61_query_chars_example : url_serialize env0 (VDict false [(VStr $"a b", VStr $"{}")]) = Ok $"a+b=%5C%7B%5C%7D".
Proof. reflexivity. Qed.
@end *)

(** @prop C61 Anything but a dict cannot be written, anything but a text cannot be read. *)
Lemma urlencoded_refuses :
  forall E semicolons v,
    (match v with VDict _ _ | VSurr _ _ _ _ => False | _ => True end -> url_serialize E v = py ValueError)
    /\ (match v with VStr _ => False | _ => True end -> url_unserialize E semicolons v = py ValueError).
Proof. intros E semicolons v. split; destruct v; intros H; try contradiction; reflexivity. Qed.

(** @example
Example C61_refuses_example : url_serialize env0 (VList []) = py ValueError /\ url_unserialize env0 false (VInt 1) = py ValueError.
Proof. split; reflexivity. Qed.
@end *)
