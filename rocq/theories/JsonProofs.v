(** * The JSON format (C74). *)
(* @imports Spec Demo JsonSpec *)
From Coq Require Import ZifyBool ZifyN ZifyNat FinFun.
From Verif Require Import PyBaseFacts Induct Spec Demo ProcessFacts NumFacts StructFacts StructProofs NumProofs ConfProofs StSpec StProofs UrlProofs XmlProofs JsonSpec.
Open Scope N_scope.
Local Ltac Zify.zify_post_hook ::= Z.div_mod_to_equations.

(** ** Texts *)

Lemma hex_json n : n < 16 -> hex_digit (json_hex n) = Some n.
Proof.
  intros Hn. unfold json_hex, hex_digit. destruct (N.ltb_spec n 10).
  - destruct ((48 <=? 48 + n) && (48 + n <=? 57)) eqn:H1; [f_equal; lia|lia].
  - destruct ((48 <=? 87 + n) && (87 + n <=? 57)) eqn:H1; [lia|].
    destruct ((97 <=? 87 + n) && (87 + n <=? 102)) eqn:H2; [f_equal; lia|lia].
Qed.

Lemma json_code_u c : c < 65536 ->
  json_code (json_hex (c / 4096)) (json_hex (c / 256 mod 16)) (json_hex (c / 16 mod 16)) (json_hex (c mod 16)) = Some c.
Proof.
  intros Hc. unfold json_code. rewrite !hex_json by lia. f_equal. lia.
Qed.

Inductive form : N -> str -> Prop :=
| form_self : forall c, 32 <= c <= 126 -> c <> 34 -> c <> 92 -> form c [c]
| form_short : forall c e, e <> 117 -> json_unescape e = Some c -> form c [92; e]
| form_u : forall c, c < 65536 -> form c (json_u c)
| form_pair : forall c, 65536 <= c < 1114112 ->
    form c (json_u (55296 + (c - 65536) / 1024) ++ json_u (56320 + (c - 65536) mod 1024)).

Lemma json_char_form c : c < 1114112 -> form c (json_char c).
Proof.
  intros Hc. unfold json_char.
  repeat match goal with
         | |- form _ (if ?b =? ?k then _ else _) => destruct (N.eqb_spec b k) as [->|?]; [apply form_short; [discriminate|reflexivity]|]
         end.
  destruct ((32 <=? c) && (c <=? 126)) eqn:H1; [apply form_self; lia|].
  destruct (N.ltb_spec c 65536); [apply form_u; lia|apply form_pair; lia].
Qed.

Lemma json_char_short c e rest : json_unescape e = Some c -> e <> 117 ->
  json_chars None (92 :: e :: rest) = match json_chars None rest with Some (t, r) => Some (c :: t, r) | None => None end.
Proof.
  intros He Hu. cbn [json_chars]. replace (92 =? 34) with false by reflexivity. replace (92 =? 92) with true by reflexivity.
  replace (e =? 117) with false by (symmetry; apply N.eqb_neq; exact Hu). rewrite He. reflexivity.
Qed.

Lemma json_chars_u pending c rest : c < 65536 ->
  json_chars pending (json_u c ++ rest)
  = match pending with
    | Some h => match json_chars None rest with
                | Some (t, r) => Some (65536 + (h - 55296) * 1024 + (c - 56320) :: t, r)
                | None => None
                end
    | None => match (if high_surrogate c then second_half rest else None) with
              | Some _ => json_chars (Some c) rest
              | None => match json_chars None rest with Some (t, r) => Some (c :: t, r) | None => None end
              end
    end.
Proof.
  intros Hc. unfold json_u. cbn [app]. cbn [json_chars].
  replace (92 =? 34) with false by reflexivity. replace (92 =? 92) with true by reflexivity. replace (117 =? 117) with true by reflexivity.
  rewrite (json_code_u c Hc). reflexivity.
Qed.

Lemma second_half_u c rest : c < 65536 -> second_half (json_u c ++ rest) = if low_surrogate c then Some c else None.
Proof.
  intros Hc. unfold json_u. cbn [app second_half]. replace ((92 =? 92) && (117 =? 117)) with true by reflexivity.
  rewrite (json_code_u c Hc). reflexivity.
Qed.

Lemma second_half_next s r :
  (forall c, In c s -> c < 1114112) -> (forall l b, s = l :: b -> ~ (56320 <= l < 57344)) ->
  second_half (flat_map json_char s ++ 34 :: r) = None.
Proof.
  intros Hs Hl. destruct s as [|c s]; cbn [flat_map app].
  - unfold second_half. destruct r as [|? [|? [|? [|? [|? ?]]]]]; reflexivity.
  - assert (Hn : ~ (56320 <= c < 57344)) by (apply (Hl c s); reflexivity).
    assert (Hf := json_char_form c (Hs c (or_introl eq_refl))).
    remember (flat_map json_char s ++ 34 :: r) as rest. rewrite <- app_assoc, <- Heqrest. clear Heqrest.
    clear Hs Hl. revert Hn. destruct Hf as [c H1 H2 H3|c e H1 H2|c H1|c H1]; intros Hn; cbn [app].
    + unfold second_half. destruct rest as [|? [|? [|? [|? [|? ?]]]]]; try reflexivity.
      replace ((c =? 92) && _) with false; [reflexivity|]. symmetry. apply andb_false_intro1. apply N.eqb_neq. exact H3.
    + unfold second_half. destruct rest as [|? [|? [|? [|? ?]]]]; try reflexivity.
      replace ((92 =? 92) && (e =? 117)) with false; [reflexivity|]. symmetry. apply andb_false_intro2. apply N.eqb_neq. exact H1.
    + rewrite (second_half_u c rest H1). unfold low_surrogate. destruct ((56320 <=? c) && (c <? 57344)) eqn:H; [lia|reflexivity].
    + rewrite <- app_assoc, second_half_u by lia. unfold low_surrogate.
      destruct ((56320 <=? 55296 + (c - 65536) / 1024) && (55296 + (c - 65536) / 1024 <? 57344)) eqn:H; [lia|reflexivity].
Qed.

Lemma carried_tail c s : carried (c :: s) -> carried s.
Proof.
  intros [H1 H2]. split; [intros d Hd; apply H1; right; exact Hd|].
  intros a h l b ->. apply (H2 (c :: a) h l b). reflexivity.
Qed.

Lemma json_chars_text s : forall r, carried s -> json_chars None (flat_map json_char s ++ 34 :: r) = Some (s, r).
Proof.
  induction s as [|c s IH]; intros r Hc; cbn [flat_map app]; [reflexivity|].
  assert (Hs := carried_tail _ _ Hc). specialize (IH r Hs). destruct Hc as [Hc1 Hc2].
  assert (Hf := json_char_form c (Hc1 c (or_introl eq_refl))).
  rewrite <- app_assoc.
  assert (Hnext : high_surrogate c = true -> second_half (flat_map json_char s ++ 34 :: r) = None).
  { intros Hh. apply second_half_next; [intros d Hd; apply Hc1; right; exact Hd|].
    intros l b -> Hl. apply (Hc2 [] c l b eq_refl). unfold high_surrogate in Hh. split; lia. }
  clear Hc1 Hc2. revert Hnext. destruct Hf as [c H1 H2 H3|c e H1 H2|c H1|c H1]; intros Hnext.
  - cbn [app json_chars]. replace (c =? 34) with false by (symmetry; apply N.eqb_neq; exact H2).
    replace (c =? 92) with false by (symmetry; apply N.eqb_neq; exact H3).
    replace (c <? 32) with false by (symmetry; apply N.ltb_ge; lia). rewrite IH. reflexivity.
  - cbn [app]. rewrite (json_char_short c e _ H2 H1), IH. reflexivity.
  - rewrite (json_chars_u None c _ H1). destruct (high_surrogate c) eqn:Hh.
    + rewrite (Hnext eq_refl), IH. reflexivity.
    + rewrite IH. reflexivity.
  - rewrite <- app_assoc, json_chars_u by lia.
    replace (high_surrogate (55296 + (c - 65536) / 1024)) with true by (unfold high_surrogate; symmetry; lia).
    rewrite second_half_u by lia.
    replace (low_surrogate (56320 + (c - 65536) mod 1024)) with true by (unfold low_surrogate; symmetry; lia).
    rewrite json_chars_u by lia. rewrite IH. do 2 f_equal. f_equal. lia.
Qed.

(** ** Numbers *)

(** What may follow a value in a document. *)
Definition stops (r : str) : Prop :=
  forall c r', r = c :: r' -> ~ (48 <= c <= 57) /\ c <> 46 /\ c <> 101 /\ c <> 69.

Lemma is_digit_iff c : is_digit c = true <-> 48 <= c <= 57.
Proof. unfold is_digit. lia. Qed.

Lemma not_digit c : ~ (48 <= c <= 57) -> is_digit c = false.
Proof. unfold is_digit. lia. Qed.

Lemma span_digits ds r : digits_only ds -> (forall c r', r = c :: r' -> ~ (48 <= c <= 57)) -> span is_digit (ds ++ r) = (ds, r).
Proof.
  intros [_ H1] H2. apply span_all; [intros c Hc; apply is_digit_iff, H1, Hc|].
  intros c r' Hr. apply not_digit, (H2 c r' Hr).
Qed.

Definition fraction_ok (fr : str) : Prop := fr = [] \/ exists ds, fr = $"." ++ ds /\ digits_only ds.
Definition exponent_ok (ex : str) : Prop :=
  ex = [] \/ exists e sg ds, ex = e ++ sg ++ ds /\ (e = $"e" \/ e = $"E")
                         /\ (sg = [] \/ sg = $"-" \/ sg = $"+") /\ digits_only ds.
Definition whole_ok (ip : str) : Prop := ip = $"0" \/ digits_only ip /\ forall r, ip <> 48 :: r.

Lemma exponent_scan ex r : exponent_ok ex -> stops r -> json_exponent (ex ++ r) = (ex, r).
Proof.
  intros [->|[e [sg [ds [-> [He [Hs [Hn Hd]]]]]]]] Hr.
  - cbn [app]. unfold json_exponent. destruct r as [|c r]; [reflexivity|]. destruct (Hr c r eq_refl) as [_ [_ [H1 H2]]].
    destruct (N.eqb_spec c 101); [contradiction|]. destruct (N.eqb_spec c 69); [contradiction|]. reflexivity.
  - assert (Hspan : span is_digit (ds ++ r) = (ds, r)) by (apply span_digits; [split; assumption|intros c r' H; apply (Hr c r' H)]).
    assert (Hbody : forall x, (x =? 101) || (x =? 69) = true -> json_exponent (x :: sg ++ ds ++ r) = (x :: sg ++ ds, r)).
    { intros x Hx. unfold json_exponent. rewrite Hx. destruct Hs as [->|[->| ->]].
      - cbn [app]. destruct ds as [|d ds]; [congruence|]. cbn [app].
        assert (Hdd := Hd d (or_introl eq_refl)).
        replace ((d =? 45) || (d =? 43)) with false by (symmetry; lia).
        change (d :: ds ++ r) with ((d :: ds) ++ r). rewrite Hspan. reflexivity.
      - change ($"-") with [45]. cbn [app]. replace ((45 =? 45) || (45 =? 43)) with true by reflexivity.
        rewrite Hspan. destruct ds as [|d ds]; [congruence|reflexivity].
      - change ($"+") with [43]. cbn [app]. replace ((43 =? 45) || (43 =? 43)) with true by reflexivity.
        rewrite Hspan. destruct ds as [|d ds]; [congruence|reflexivity]. }
    rewrite <- !app_assoc. destruct He as [-> | ->].
    + change ($"e") with [101]. cbn [app]. apply Hbody. reflexivity.
    + change ($"E") with [69]. cbn [app]. apply Hbody. reflexivity.
Qed.

Lemma exponent_first ex r c r' : exponent_ok ex -> stops r -> ex ++ r = c :: r' -> ~ (48 <= c <= 57) /\ c <> 46.
Proof.
  intros [->|[e [sg [ds [-> [He _]]]]]] Hr.
  - cbn [app]. intros H. destruct (Hr c r' H) as [H1 [H2 _]]. split; assumption.
  - destruct He as [-> | ->]; rewrite <- app_assoc.
    + change ($"e") with [101]. intros [= <- _]. split; lia.
    + change ($"E") with [69]. intros [= <- _]. split; lia.
Qed.

Lemma fraction_scan fr ex r : fraction_ok fr -> exponent_ok ex -> stops r -> json_fraction (fr ++ ex ++ r) = (fr, ex ++ r).
Proof.
  intros [->|[ds [-> [Hn Hd]]]] He Hr.
  - cbn [app]. unfold json_fraction. destruct (ex ++ r) as [|c x] eqn:Hx; [reflexivity|].
    destruct (exponent_first ex r c x He Hr Hx) as [_ H]. destruct (N.eqb_spec c 46); [contradiction|reflexivity].
  - change ($".") with [46]. cbn [app]. unfold json_fraction. replace (46 =? 46) with true by reflexivity.
    rewrite span_digits; [destruct ds; [congruence|reflexivity]|split; assumption|].
    intros c r' H. apply (exponent_first ex r c r' He Hr H).
Qed.

Lemma number_scan E sg ip fr ex r :
  sg = [] \/ sg = $"-" -> whole_ok ip -> fraction_ok fr -> exponent_ok ex -> stops r ->
  json_number E (sg ++ ip ++ fr ++ ex ++ r)
  = match fr ++ ex with
    | [] => match parse_int (e_udigit E) (sg ++ ip) with Some z => Ok (VInt z, r) | None => json_bad end
    | _ => match parse_float (e_udigit E) (sg ++ ip ++ fr ++ ex) with Some f => Ok (VFloat f, r) | None => json_bad end
    end.
Proof.
  intros Hsg Hip Hfr Hex Hr.
  assert (Hne : ip <> []) by (destruct Hip as [->|[[H _] _]]; [discriminate|exact H]).
  assert (Hfirst : forall c x, ip = c :: x -> 48 <= c <= 57).
  { intros c x ->. destruct Hip as [H|[[_ H] _]]; [injection H as -> _; lia|apply H; left; reflexivity]. }
  assert (Hnext : forall c x, fr ++ ex ++ r = c :: x -> ~ (48 <= c <= 57)).
  { intros c x. destruct Hfr as [->|[ds [-> _]]].
    - cbn [app]. intros H. apply (exponent_first ex r c x Hex Hr H).
    - change ($".") with [46]. intros [= <- _]. lia. }
  unfold json_number.
  assert (Hsign : json_minus (sg ++ ip ++ fr ++ ex ++ r) = (sg, ip ++ fr ++ ex ++ r)).
  { unfold json_minus. destruct Hsg as [-> | ->].
    - cbn [app]. destruct ip as [|c ip]; [congruence|]. cbn [app]. specialize (Hfirst c ip eq_refl).
      destruct (N.eqb_spec c 45); [lia|reflexivity].
    - change ($"-") with [45]. reflexivity. }
  rewrite Hsign. clear Hsign.
  assert (Hwhole : json_whole (ip ++ fr ++ ex ++ r) = (ip, fr ++ ex ++ r)).
  { unfold json_whole. destruct Hip as [->|[Hd Hz]].
    - change ($"0") with [48]. reflexivity.
    - destruct ip as [|c ip]; [congruence|]. cbn [app]. destruct (N.eqb_spec c 48) as [->|?]; [exfalso; apply (Hz ip eq_refl)|].
      change (c :: ip ++ fr ++ ex ++ r) with ((c :: ip) ++ fr ++ ex ++ r). apply span_digits; assumption. }
  rewrite Hwhole. clear Hwhole. rewrite (fraction_scan fr ex r Hfr Hex Hr), (exponent_scan ex r Hex Hr).
  destruct ip as [|c ip]; [congruence|]. reflexivity.
Qed.

Lemma Z_text_shape z : exists sg ip, Z_text z = sg ++ ip /\ (sg = [] \/ sg = $"-") /\ whole_ok ip.
Proof.
  rewrite Z_text_sign. exists (if (z <? 0)%Z then [45] else []), (render (digits (Z.abs_N z))).
  split; [reflexivity|]. split; [destruct (z <? 0)%Z; [right; reflexivity|left; reflexivity]|].
  destruct (digits_spec (Z.abs_N z)) as [_ [Hd [Hn Hz]]].
  destruct (digits (Z.abs_N z)) as [|d ds]; [congruence|]. destruct (N.eq_dec d 0) as [->|H0].
  - left. rewrite (Hz 0 ds eq_refl eq_refl). reflexivity.
  - right. split; [split; [discriminate|]|].
    + intros c Hc. apply (render_In c (d :: ds) Hd Hc).
    + intros r H. apply (f_equal (hd 0)) in H. cbn [hd render map] in H. lia.
Qed.

(** ** Values *)

Lemma starts_other a p c s : c <> a -> starts_with (a :: p) (c :: s) = false.
Proof.
  intros H. unfold starts_with. cbn [length firstn]. apply str_eqb_neq. intros [= Heq _]. contradiction.
Qed.

Lemma word_number E c s :
  48 <= c <= 57 \/ c = 45 /\ (exists d s', s = d :: s' /\ 48 <= d <= 57) -> json_word E (c :: s) = json_number E (c :: s).
Proof.
  intros H. assert (Hc : c = 45 \/ 48 <= c <= 57) by lia. unfold json_word.
  change ($"null") with (110 :: $"ull"). rewrite starts_other by lia.
  change ($"true") with (116 :: $"rue"). rewrite starts_other by lia.
  change ($"false") with (102 :: $"alse"). rewrite starts_other by lia.
  change ($"NaN") with (78 :: $"aN"). rewrite starts_other by lia.
  change ($"Infinity") with (73 :: $"nfinity"). rewrite starts_other by lia.
  replace (starts_with $"-Infinity" (c :: s)) with false; [reflexivity|]. symmetry.
  destruct H as [H|[-> [d [s' [-> Hd]]]]].
  - change ($"-Infinity") with (45 :: $"Infinity"). apply starts_other. lia.
  - unfold starts_with. apply str_eqb_neq. change ($"-Infinity") with (45 :: 73 :: $"nfinity"). cbn [length firstn].
    intros H. apply (f_equal (fun l => hd 0 (tl l))) in H. cbn [hd tl] in H. lia.
Qed.

Lemma whole_first ip : whole_ok ip -> exists c x, ip = c :: x /\ 48 <= c <= 57.
Proof.
  intros [->|[[Hn Hd] _]]; [exists 48, []; split; [reflexivity|lia]|].
  destruct ip as [|c x]; [congruence|]. exists c, x. split; [reflexivity|apply Hd; left; reflexivity].
Qed.

Lemma value_number E n sg ip r :
  sg = [] \/ sg = $"-" -> whole_ok ip ->
  json_value E (S n) (sg ++ ip ++ r) = json_number E (sg ++ ip ++ r).
Proof.
  intros Hsg Hip. destruct (whole_first ip Hip) as [c [x [-> Hc]]].
  assert (H : exists d y, sg ++ (c :: x) ++ r = d :: y /\ (48 <= d <= 57 \/ d = 45 /\ (exists e s', y = e :: s' /\ 48 <= e <= 57))).
  { destruct Hsg as [-> | ->].
    - exists c, (x ++ r). split; [reflexivity|]. left. exact Hc.
    - exists 45, (c :: x ++ r). split; [reflexivity|]. right. split; [reflexivity|]. exists c, (x ++ r). split; [reflexivity|exact Hc]. }
  destruct H as [d [y [-> H]]]. cbn [json_value].
  replace (d =? 34) with false by (symmetry; lia). replace (d =? 91) with false by (symmetry; lia).
  replace (d =? 123) with false by (symmetry; lia). apply word_number. exact H.
Qed.

(** The text of a value in a document, and what is read from it. *)
Definition printable (t : str) : Prop := Forall (fun c => 32 <= c <= 126) t.
Definition reads (E : env) (t : str) (w : val) : Prop :=
  ((exists c x, t = c :: x /\ json_white c = false /\ c <> 93 /\ c <> 125) /\ printable t)
  /\ forall n r, stops r -> (2 * length (t ++ r) < n)%nat -> json_value E n (t ++ r) = Ok (w, r).

Lemma number_start sg ip r : sg = [] \/ sg = $"-" -> whole_ok ip ->
  exists c x, sg ++ ip ++ r = c :: x /\ json_white c = false /\ c <> 93 /\ c <> 125.
Proof.
  intros Hsg Hip. destruct (whole_first ip Hip) as [c [x [-> Hc]]]. destruct Hsg as [-> | ->].
  - exists c, (x ++ r). split; [reflexivity|]. unfold json_white. lia.
  - exists 45, (c :: x ++ r). split; [reflexivity|]. unfold json_white. lia.
Qed.

Lemma printable_app a b : printable a -> printable b -> printable (a ++ b).
Proof. intros H1 H2. apply Forall_app. split; assumption. Qed.

Lemma printable_lit s : forallb (fun c => (32 <=? c) && (c <=? 126)) s = true -> printable s.
Proof. intros H. apply Forall_forall. intros c Hc. rewrite forallb_forall in H. specialize (H c Hc). lia. Qed.

Lemma printable_digits ds : digits_only ds -> printable ds.
Proof. intros [_ H]. apply Forall_forall. intros c Hc. specialize (H c Hc). cbn beta. lia. Qed.

Lemma printable_join ts : Forall printable ts -> printable (join $", " ts).
Proof.
  induction 1 as [|t ts Ht Hts IH]; [constructor|]. destruct ts as [|u ts]; [exact Ht|].
  change (join $", " (t :: u :: ts)) with (t ++ $", " ++ join $", " (u :: ts)).
  apply printable_app; [exact Ht|]. apply printable_app; [apply printable_lit; reflexivity|exact IH].
Qed.

Lemma printable_hex n : n < 16 -> 32 <= json_hex n <= 126.
Proof. unfold json_hex. destruct (n <? 10) eqn:H; lia. Qed.

Lemma printable_u c : c < 65536 -> printable (json_u c).
Proof.
  intros H. unfold json_u, printable. repeat constructor; cbn beta; try (apply printable_hex; lia); lia.
Qed.

Lemma printable_quote s : (forall c, In c s -> c < 1114112) -> printable (json_quote s).
Proof.
  intros H. unfold json_quote. constructor; [lia|]. apply printable_app; [|repeat constructor; lia].
  induction s as [|c s IH]; [constructor|]. cbn [flat_map]. apply printable_app; [|apply IH; intros d Hd; apply H; right; exact Hd].
  destruct (json_char_form c (H c (or_introl eq_refl))) as [d Hd H2 H3|d e H1 H2|d Hd|d Hd].
  - repeat constructor; lia.
  - unfold json_unescape in H2.
    repeat match type of H2 with (if ?a =? ?b then _ else _) = _ => destruct (N.eqb_spec a b) as [->|?]; [repeat constructor; cbn beta; lia|] end.
    discriminate.
  - apply printable_u. exact Hd.
  - apply printable_app; apply printable_u; lia.
Qed.

Lemma reads_int E z : reads E (Z_text z) (VInt z).
Proof.
  destruct (Z_text_shape z) as [sg [ip [Hz [Hsg Hip]]]]. split.
  - split; [rewrite Hz; rewrite <- (app_nil_r ip); apply number_start; assumption|].
    apply Forall_forall. intros c Hc. apply Z_text_chars in Hc. cbn beta. lia.
  - intros n r Hr Hn. destruct n as [|n]; [lia|]. rewrite Hz, <- app_assoc. rewrite value_number by assumption.
    change (sg ++ ip ++ r) with (sg ++ ip ++ [] ++ [] ++ r). rewrite number_scan; try assumption; try (left; reflexivity).
    cbn [app]. rewrite <- Hz, (parse_int_text (e_udigit E) (Z_text z) z (integer_str_is_text z)). reflexivity.
Qed.

Lemma reads_float E f : prints E f -> reads E (e_str E (VFloat f)) (VFloat f).
Proof.
  intros [[sg [ip [fr [ex [Hs [Hsg [Hip [Hfr [Hex Hne]]]]]]]]] Hp]. split.
  - rewrite Hs. split; [apply number_start; assumption|].
    apply printable_app; [destruct Hsg as [-> | ->]; apply printable_lit; reflexivity|].
    apply printable_app; [destruct Hip as [->|[Hd _]]; [apply printable_lit; reflexivity|apply printable_digits; exact Hd]|].
    apply printable_app.
    + destruct Hfr as [->|[ds [-> Hd]]]; [constructor|]. apply printable_app; [apply printable_lit; reflexivity|apply printable_digits; exact Hd].
    + destruct Hex as [->|[e [g [ds [-> [He [Hg Hd]]]]]]]; [constructor|].
      apply printable_app; [destruct He as [-> | ->]; apply printable_lit; reflexivity|].
      apply printable_app; [destruct Hg as [->|[-> | ->]]; apply printable_lit; reflexivity|apply printable_digits; exact Hd].
  - intros n r Hr Hn. destruct n as [|n]; [lia|]. rewrite Hs in *. rewrite <- !app_assoc. rewrite value_number by assumption.
    rewrite number_scan by assumption. rewrite Hp. destruct (fr ++ ex); [congruence|reflexivity].
Qed.

Lemma reads_word E t w c x : t = c :: x -> json_white c = false -> c <> 93 -> c <> 125 -> c <> 34 -> c <> 91 -> c <> 123 ->
  forallb (fun c => (32 <=? c) && (c <=? 126)) t = true ->
  (forall r, json_word E (t ++ r) = Ok (w, r)) -> reads E t w.
Proof.
  intros Ht H1 H2 H3 H4 H5 H6 Hp Hw. split; [split; [exists c, x; auto|apply printable_lit; exact Hp]|]. intros n r _ Hn. destruct n as [|n]; [lia|].
  specialize (Hw r). rewrite Ht in *. cbn [app] in *. cbn [json_value].
  replace (c =? 34) with false by (symmetry; apply N.eqb_neq; assumption).
  replace (c =? 91) with false by (symmetry; apply N.eqb_neq; assumption).
  replace (c =? 123) with false by (symmetry; apply N.eqb_neq; assumption). exact Hw.
Qed.

Lemma reads_text E s : carried s -> reads E (json_quote s) (VStr s).
Proof.
  intros Hs. split.
  { split; [exists 34, (flat_map json_char s ++ [34]); split; [reflexivity|]; split; [reflexivity|split; discriminate]|].
    apply printable_quote. apply Hs. }
  intros n r _ Hn. destruct n as [|n]; [lia|]. unfold json_quote. cbn [app]. rewrite <- app_assoc. cbn [app json_value].
  replace (34 =? 34) with true by reflexivity. rewrite (json_chars_text s r Hs). reflexivity.
Qed.

Lemma skip_white_start c s : json_white c = false -> skip_white (c :: s) = c :: s.
Proof. intros H. unfold skip_white. cbn [span]. rewrite H. reflexivity. Qed.

Lemma skip_white_space s : skip_white (32 :: s) = skip_white s.
Proof. unfold skip_white. cbn [span]. replace (json_white 32) with true by reflexivity. reflexivity. Qed.

Lemma stops_char c s : ~ (48 <= c <= 57) -> c <> 46 -> c <> 101 -> c <> 69 -> stops (c :: s).
Proof. intros H1 H2 H3 H4 d r [= <- <-]. auto. Qed.

Lemma items_read E ts ms : Forall2 (reads E) ts ms -> ts <> [] -> forall n r,
  (2 * length (join $", " ts ++ 93%N :: r) + 1 < n)%nat -> json_items E n (join $", " ts ++ 93 :: r) = Ok (ms, r).
Proof.
  induction 1 as [|t m ts ms [[[c [x [Ht [Hw [Hc1 Hc2]]]]] _] Hread] Hrest IH]; intros Hne n r Hn; [congruence|].
  destruct n as [|n]; [lia|]. cbn [json_items]. destruct ts as [|t2 ts].
  - inversion Hrest; subst ms. cbn [join] in *.
    rewrite Hread; [|apply stops_char; lia|lia]. cbn [bind fst snd].
    rewrite skip_white_start by reflexivity. reflexivity.
  - change (join $", " (t :: t2 :: ts)) with (t ++ $", " ++ join $", " (t2 :: ts)) in *.
    change ($", ") with [44; 32] in *. rewrite <- !app_assoc in *. cbn [app] in *.
    rewrite Hread; [|apply stops_char; lia|lia]. cbn [bind fst snd].
    rewrite skip_white_start by reflexivity. replace (44 =? 93) with false by reflexivity. replace (44 =? 44) with true by reflexivity.
    rewrite skip_white_space.
    assert (Hstart : skip_white (join [44; 32] (t2 :: ts) ++ 93 :: r) = join [44; 32] (t2 :: ts) ++ 93 :: r).
    { inversion Hrest as [|? m2 ? ms2 [[[c2 [x2 [Ht2 [Hw2 _]]]] _] _] Hr2]; subst. destruct ts; cbn [join app]; apply skip_white_start; exact Hw2. }
    rewrite Hstart, IH; [reflexivity|discriminate|]. rewrite !app_length in Hn. cbn [length] in Hn. rewrite app_length in *. cbn [length] in *. lia.
Qed.

Ltac lens := do 6 (cbn [length] in *; rewrite ?app_length in *).

Lemma sset_fresh k x acc : ~ In (VStr k) (map fst acc) -> sset k x acc = acc ++ [(VStr k, x)].
Proof.
  induction acc as [|[k' v] acc IH]; cbn [map fst In sset app]; intros H; [reflexivity|].
  destruct k'; try (rewrite IH by tauto; reflexivity).
  destruct (str_eqb k s) eqn:Hk; [apply str_eqb_eq in Hk; subst; exfalso; apply H; left; reflexivity|]. rewrite IH by tauto. reflexivity.
Qed.

(** A member of an object: the key, the text of the value, the value. *)
Definition member_text (m : str * str) : str := json_quote (fst m) ++ $": " ++ snd m.

Lemma members_read E ms : forall ws,
  Forall2 (fun m w => carried (fst m) /\ reads E (snd m) w) ms ws -> ms <> [] -> NoDup (map fst ms) -> forall acc n r,
  (forall k, In k (map fst ms) -> ~ In (VStr k) (map fst acc)) ->
  (2 * length (join $", " (map member_text ms) ++ 125%N :: r) + 1 < n)%nat ->
  json_members E n acc (join $", " (map member_text ms) ++ 125 :: r)
  = Ok (acc ++ combine (map (fun m => VStr (fst m)) ms) ws, r).
Proof.
  induction ms as [|[k t] ms IH]; intros ws Hall Hne Hnd acc n r Hacc Hn; [congruence|].
  inversion Hall as [|? w ? ws' [Hk [[[c [x [Ht [Hw [Hc1 Hc2]]]]] _] Hread]] Hrest]; subst. cbn [fst snd] in *.
  inversion Hnd as [|? ? Hni Hnd']; subst.
  destruct n as [|n]; [lia|]. cbn [json_members]. set (t := c :: x) in *.
  assert (Hkey : forall s, json_chars None (flat_map json_char k ++ 34 :: s) = Some (k, s)) by (intros s; apply json_chars_text; exact Hk).
  assert (Hfresh : sset k w acc = acc ++ [(VStr k, w)]) by (apply sset_fresh, Hacc; left; reflexivity).
  destruct ms as [|m2 ms].
  - inversion Hrest; subst ws'. cbn [join map combine] in *. unfold member_text, json_quote in *. cbn [fst snd app] in *.
    change ($": ") with [58; 32] in *. rewrite <- !app_assoc in *. cbn [app] in *.
    replace (34 =? 34) with true by reflexivity. rewrite Hkey. rewrite skip_white_start by reflexivity.
    replace (58 =? 58) with true by reflexivity. rewrite skip_white_space.
    unfold t at 1. cbn [app]. rewrite skip_white_start by exact Hw. change (c :: x ++ 125 :: r) with (t ++ 125 :: r).
    rewrite Hread; [|apply stops_char; lia|lens; lia].
    cbn [bind fst snd]. rewrite skip_white_start by reflexivity. replace (125 =? 125) with true by reflexivity. rewrite Hfresh. reflexivity.
  - assert (Hstep : forall y, join $", " (map member_text ((k, t) :: m2 :: ms)) ++ y
                    = 34 :: flat_map json_char k ++ 34 :: 58 :: 32 :: t ++ 44 :: 32 :: join $", " (map member_text (m2 :: ms)) ++ y).
    { intros y. change (join $", " (map member_text ((k, t) :: m2 :: ms)))
        with (member_text (k, t) ++ $", " ++ join $", " (map member_text (m2 :: ms))).
      unfold member_text at 1, json_quote. cbn [fst snd]. change ($": ") with [58; 32]. change ($", ") with [44; 32].
      rewrite <- ?app_assoc. cbn [app]. rewrite <- ?app_assoc. cbn [app]. rewrite <- ?app_assoc. reflexivity. }
    rewrite Hstep in *.
    replace (34 =? 34) with true by reflexivity. rewrite Hkey. rewrite skip_white_start by reflexivity.
    replace (58 =? 58) with true by reflexivity. rewrite skip_white_space.
    unfold t at 1. cbn [app]. rewrite skip_white_start by exact Hw.
    change (c :: x ++ ?y) with (t ++ y).
    rewrite Hread; [|apply stops_char; lia|lens; lia].
    cbn [bind fst snd]. rewrite skip_white_start by reflexivity. replace (44 =? 125) with false by reflexivity. replace (44 =? 44) with true by reflexivity.
    rewrite skip_white_space, Hfresh.
    assert (Hstart : forall y, skip_white (join $", " (map member_text (m2 :: ms)) ++ y) = join $", " (map member_text (m2 :: ms)) ++ y).
    { intros y. destruct ms; cbn [map join]; unfold member_text, json_quote; cbn [app]; apply skip_white_start; reflexivity. }
    rewrite Hstart, (IH ws' Hrest); [|discriminate|exact Hnd'| |].
    + rewrite <- app_assoc. reflexivity.
    + intros k' Hk'. rewrite map_app, in_app_iff. cbn [map fst In]. intros [H|[[= ->]|[]]]; [apply (Hacc k'); [right; exact Hk'|exact H]|contradiction].
    + lens. lia.
Qed.

(** The loops of [json_serialize]. *)
Lemma json_list_text E l ts :
  Forall2 (fun v t => json_serialize E v = Ok t) l ts ->
  (fix go (l : list val) : res (list str) :=
     match l with [] => Ok [] | x :: l' => do t <- json_serialize E x; do r <- go l'; Ok (t :: r) end) l = Ok ts.
Proof. induction 1 as [|v t l ts Hv Hl IH]; [reflexivity|]. rewrite Hv. cbn [bind]. rewrite IH. reflexivity. Qed.

Lemma json_dict_text E (l : list (val * val)) (ms : list (str * str)) :
  Forall2 (fun kv m => json_key E (fst kv) = Some (fst m) /\ json_serialize E (snd kv) = Ok (snd m)) l ms ->
  (fix go (l : list (val * val)) : res (list str) :=
     match l with
     | [] => Ok []
     | (k, x) :: l' =>
         match json_key E k with
         | None => py TypeError
         | Some kt => do t <- json_serialize E x; do r <- go l'; Ok ((json_quote kt ++ $": " ++ t) :: r)
         end
     end) l = Ok (map member_text ms).
Proof.
  induction 1 as [|[k v] [kt t] l ms [Hk Hv] Hl IH]; [reflexivity|]. cbn [fst snd] in *. rewrite Hk, Hv. cbn [bind]. rewrite IH. reflexivity.
Qed.

Lemma key_text_key E k t : key_text E k t -> json_key E k = Some t.
Proof. intros H. destruct H as [| | | | |f Hf| | |]; try reflexivity. destruct f; try contradiction; reflexivity. Qed.

Lemma json_value_array E n s : json_value E (S n) (91 :: s)
  = match skip_white s with
    | [] => json_bad
    | d :: r' => if d =? 93 then Ok (VList [], r') else do x <- json_items E n (d :: r'); Ok (VList (fst x), snd x)
    end.
Proof. reflexivity. Qed.

Lemma json_value_object E n s : json_value E (S n) (123 :: s)
  = match skip_white s with
    | [] => json_bad
    | d :: r' => if d =? 125 then Ok (VDict false [], r')
                 else do x <- json_members E n [] (d :: r'); Ok (VDict false (fst x), snd x)
    end.
Proof. reflexivity. Qed.

Lemma json_reads E v : forall w, json E v w -> exists t, json_serialize E v = Ok t /\ reads E t w.
Proof.
  induction v as [v IH] using val_ind'. intros w H.
  assert (Hlist : forall l m, (forall u, In u l -> In u (subvals v)) -> Forall2 (json E) l m ->
            exists ts, Forall2 (fun u t => json_serialize E u = Ok t) l ts /\ Forall2 (reads E) ts m).
  { intros l m Hin Hm. induction Hm as [|u x l m Hu Hm IHm]; [exists []; split; constructor|].
    destruct (IH u (Hin u (or_introl eq_refl)) x Hu) as [t [Ht Hr]].
    destruct IHm as [ts [Hts Hrs]]; [intros y Hy; apply Hin; right; exact Hy|]. exists (t :: ts). split; constructor; assumption. }
  assert (Harr : forall l m, (forall u, In u l -> In u (subvals v)) -> Forall2 (json E) l m ->
            (forall ts, (fix go (l : list val) : res (list str) :=
               match l with [] => Ok [] | x :: l' => do t <- json_serialize E x; do r <- go l'; Ok (t :: r) end) l = Ok ts ->
               json_serialize E v = Ok ($"[" ++ join $", " ts ++ $"]")) ->
            exists t, json_serialize E v = Ok t /\ reads E t (VList m)).
  { intros l m Hin Hm Hser. destruct (Hlist l m Hin Hm) as [ts [Hts Hrs]].
    rewrite (Hser ts (json_list_text E l ts Hts)). eexists. split; [reflexivity|].
    change ($"[") with [91]. change ($"]") with [93]. split.
    { split; [exists 91, (join $", " ts ++ [93]); split; [reflexivity|]; split; [reflexivity|split; discriminate]|].
      constructor; [lia|]. apply printable_app; [|repeat constructor; lia]. apply printable_join. clear - Hrs.
      induction Hrs as [|t x ts m [[_ Ht] _] Hrs IHr]; constructor; assumption. }
    intros n r Hr Hn. cbn [app] in *. rewrite <- app_assoc in *. cbn [app] in *. destruct n as [|n]; [lia|].
    destruct Hrs as [|t m1 ts ms Hread Hrs].
    - cbn [join app json_value]. replace (91 =? 34) with false by reflexivity. replace (91 =? 91) with true by reflexivity.
      rewrite skip_white_start by reflexivity. reflexivity.
    - assert (Hitems := items_read E (t :: ts) (m1 :: ms) (Forall2_cons _ _ Hread Hrs) (fun H => nil_cons (eq_sym H)) n r).
      remember (join $", " (t :: ts) ++ 93 :: r) as body eqn:Hb.
      assert (Hstart : exists c x, body = c :: x /\ json_white c = false /\ c <> 93).
      { destruct Hread as [[[c [x [-> [Hw [H93 _]]]]] _] _]. destruct ts; cbn [join app] in Hb; subst body; eexists _, _; auto. }
      destruct Hstart as [c [x [-> [Hw H93]]]]. rewrite json_value_array.
      rewrite skip_white_start by exact Hw. replace (c =? 93) with false by (symmetry; apply N.eqb_neq; exact H93).
      rewrite Hitems by (cbn [length] in *; lia). reflexivity. }
  destruct H as [|b|z|f Hf Hp|f Hf|s Hs|l m Hm|l m Hm|v l m Hd Hm Hnd].
  - exists $"null". split; [reflexivity|]. eapply reads_word; try reflexivity; discriminate.
  - destruct b; eexists; (split; [reflexivity|]); eapply reads_word; try reflexivity; discriminate.
  - exists (Z_text z). split; [reflexivity|apply reads_int].
  - exists (e_str E (VFloat f)). split; [destruct f; try contradiction; reflexivity|apply reads_float; exact Hp].
  - destruct f as [s|s| |s mm e]; try (exfalso; apply Hf; exact I).
    + destruct s; eexists; (split; [reflexivity|]); eapply reads_word; try reflexivity; discriminate.
    + eexists; (split; [reflexivity|]); eapply reads_word; try reflexivity; discriminate.
  - exists (json_quote s). split; [reflexivity|apply reads_text; exact Hs].
  - apply (Harr l m); [intros u Hu; exact Hu|exact Hm|]. intros ts Hts. cbn [json_serialize]. rewrite Hts. reflexivity.
  - apply (Harr l m); [intros u Hu; exact Hu|exact Hm|]. intros ts Hts. cbn [json_serialize]. rewrite Hts. reflexivity.
  - assert (Hin : forall k u, In (k, u) l -> In u (subvals v)).
    { intros k u Hu. destruct v; try discriminate Hd; injection Hd as ->; cbn [subvals]; apply in_flat_map; exists (k, u); (split; [exact Hu|right; left; reflexivity]). }
    assert (Hparts : exists ms, Forall2 (fun kv p => json_key E (fst kv) = Some (fst p) /\ json_serialize E (snd kv) = Ok (snd p)) l ms
              /\ Forall2 (fun p w => carried (fst p) /\ reads E (snd p) w) ms (map snd m) /\ map (fun p => VStr (fst p)) ms = map fst m).
    { clear Hnd Hd Hlist Harr. induction Hm as [|[k u] [k' w] l m [[t [Hk [Hc Hf]]] Hu] Hm IHm]; [exists []; repeat split; constructor|].
      cbn [fst snd] in *. destruct (IH u (Hin k u (or_introl eq_refl)) w Hu) as [ut [Hut Hr]].
      destruct IHm as [ms [H1 [H2 H3]]]; [intros k0 u0 H0; apply (Hin k0); right; exact H0|].
      exists ((t, ut) :: ms). split; [constructor; [split; [apply key_text_key; exact Hk|exact Hut]|exact H1]|].
      split; [constructor; [split; assumption|exact H2]|]. cbn [map fst]. rewrite H3, Hf. reflexivity. }
    destruct Hparts as [ms [H1 [H2 H3]]].
    assert (Hser : json_serialize E v = Ok ($"{" ++ join $", " (map member_text ms) ++ $"}")).
    { destruct v; try discriminate Hd; injection Hd as ->; cbn [json_serialize]; rewrite (json_dict_text E l ms H1); reflexivity. }
    rewrite Hser. eexists. split; [reflexivity|]. change ($"{") with [123]. change ($"}") with [125].
    split.
    { split; [exists 123, (join $", " (map member_text ms) ++ [125]); split; [reflexivity|]; split; [reflexivity|split; discriminate]|].
      constructor; [lia|]. apply printable_app; [|repeat constructor; lia]. apply printable_join. revert H2. generalize (map snd m) as ws. clear. intros ws H2.
      induction H2 as [|[k t] x ms ws [[Hk _] [[_ Ht] _]] Hrs IHr]; constructor; [|exact IHr].
      unfold member_text. cbn [fst snd] in *. apply printable_app; [apply printable_quote; exact Hk|].
      apply printable_app; [apply printable_lit; reflexivity|exact Ht]. }
    intros n r Hr Hn. cbn [app] in *. rewrite <- app_assoc in *. cbn [app] in *. destruct n as [|n]; [lia|].
    assert (Hm0 : m = combine (map (fun p => VStr (fst p)) ms) (map snd m)).
    { rewrite H3. clear. induction m as [|[k w] m IHm]; [reflexivity|]. cbn [map fst snd combine]. rewrite <- IHm. reflexivity. }
    assert (Hnd2 : NoDup (map fst ms)).
    { rewrite <- H3 in Hnd. apply (NoDup_map_inv (fun k => VStr k)). rewrite map_map. exact Hnd. }
    rewrite json_value_object. destruct ms as [|p ms].
    + inversion H2 as [Hz Hm1|]. destruct m; [|discriminate]. cbn [map join app]. rewrite skip_white_start by reflexivity. reflexivity.
    + assert (Hmem := members_read E (p :: ms) (map snd m) H2 (fun H => nil_cons (eq_sym H)) Hnd2 [] n r (fun _ _ H => H)).
      assert (Hstart : exists x, join $", " (map member_text (p :: ms)) ++ 125 :: r = 34 :: x).
      { destruct ms; cbn [map join app]; eexists; reflexivity. }
      rewrite <- Hm0 in Hmem.
      destruct Hstart as [x Hx]. rewrite Hx in *. rewrite skip_white_start by reflexivity. replace (34 =? 125) with false by reflexivity.
      rewrite Hmem by (cbn [length] in *; lia). reflexivity.
Qed.

(** @prop C74 A value that JSON can carry comes back from [json.loads] of what [json.dumps] wrote:
    null, booleans, numbers and texts unchanged, lists and tuples as lists, dicts as plain dicts with
    the entries in the same order and the keys as texts.  The text has only printable ASCII. *)
Lemma json_roundtrip :
  forall E v w,
    json E v w ->
    exists t, json_serialize E v = Ok t /\ (forall c, In c t -> 32 <= c <= 126)
              /\ json_unserialize E t = Ok w.
Proof.
  intros E v w H. destruct (json_reads E v w H) as [t [Ht [[[c [x [Hx [Hw _]]]] Hp] Hread]]].
  exists t. split; [exact Ht|]. unfold printable in Hp. rewrite Forall_forall in Hp. split; [exact Hp|].
  assert (Hc := Hp c ltac:(rewrite Hx; left; reflexivity)). cbn beta in Hc.
  specialize (Hread (S (2 * length t)) [] (fun c r H => ltac:(discriminate H))). rewrite app_nil_r in Hread. specialize (Hread ltac:(lia)).
  assert (Hu : json_unserialize E t = do x <- json_value E (S (2 * length t)) (skip_white t);
                                      match skip_white (snd x) with [] => Ok (fst x) | _ => json_bad end).
  { rewrite Hx. unfold json_unserialize. destruct (N.eq_dec c 65279) as [->|Hne]; [lia|].
    destruct c as [|p]; [reflexivity|]. do 16 (destruct p as [p|p|]; try reflexivity). }
  rewrite Hu. rewrite Hx at 2. rewrite skip_white_start by exact Hw. rewrite <- Hx, Hread. reflexivity.
Qed.

(** @example
Definition env74 : env :=
  {| e_pre := e_pre env0; e_ext := e_ext env0; e_inst := e_inst env0; e_pattern := e_pattern env0; e_local := e_local env0;
     e_pad := true; e_udigit := e_udigit env0; e_uword := e_uword env0; e_ulower := e_ulower env0; e_import := e_import env0;
     e_identify := e_identify env0; e_undef := e_undef env0;
     e_str := fun v => match v with VFloat (S754_finite false _ _) => $"1.5" | VFloat _ => $"-1.5e+300" | _ => $"?" end;
     e_impl := e_impl env0; e_schemas := e_schemas env0; e_compile := e_compile env0; e_repr := e_repr env0;
     e_surrogate := e_surrogate env0; e_identity := e_identity env0 |}.
Definition doc74 : val :=
  VDict true [(VStr $"b", VTuple [VInt (-20); VNone; VFloat (S754_finite false 6755399441055744 (-52))]);
              (VInt 7, VDict false []); (VBool true, VList [VFloat (S754_finite true 5043654821435445 945); VFloat S754_nan]);
              (VNone, VStr [34; 92; 10; 233; 128512; 56832; 55357])].
Definition back74 : val :=
  VDict false [(VStr $"b", VList [VInt (-20); VNone; VFloat (S754_finite false 6755399441055744 (-52))]);
               (VStr $"7", VDict false []); (VStr $"true", VList [VFloat (S754_finite true 5043654821435445 945); VFloat S754_nan]);
               (VStr $"null", VStr [34; 92; 10; 233; 128512; 56832; 55357])].
Ltac digits := split; [discriminate | cbn; intros ? Hin; repeat (destruct Hin as [<- | Hin]; [lia |]); destruct Hin].
Ltac carry := split; [cbn; intros ? Hin; repeat (destruct Hin as [<- | Hin]; [lia |]); destruct Hin
  | let a := fresh in intros a h l b Heq [Hh Hl];
    repeat (destruct a as [|? a]; [cbn in Heq; try discriminate Heq; injection Heq as ? ? _; subst; lia
                                  | cbn in Heq; try discriminate Heq; apply (f_equal (@tl N)) in Heq; cbn in Heq])].
Example C74_prints : prints env74 (S754_finite false 6755399441055744 (-52)) /\ prints env74 (S754_finite true 5043654821435445 945).
Proof.
  split; (split; [|vm_compute; reflexivity]).
  - exists [], [49], [46; 53], []. split; [reflexivity|]. split; [left; reflexivity|]. split; [right; split; [digits|intros r; discriminate]|].
    split; [right; exists [53]; split; [reflexivity|digits]|]. split; [left; reflexivity|discriminate].
  - exists [45], [49], [46; 53], [101; 43; 51; 48; 48]. split; [reflexivity|]. split; [right; reflexivity|].
    split; [right; split; [digits|intros r; discriminate]|]. split; [right; exists [53]; split; [reflexivity|digits]|].
    split; [right; exists [101], [43], [51; 48; 48]; split; [reflexivity|]; split; [left; reflexivity|]; split; [right; right; reflexivity|digits]|discriminate].
Qed.
Example C74_example : json env74 doc74 back74 /\ (do t <- json_serialize env74 doc74; json_unserialize env74 t) = Ok back74.
Proof.
  split; [|vm_compute; reflexivity]. destruct C74_prints as [P1 P2].
  unfold doc74, back74. eapply json_dict; [reflexivity| |].
  2: { cbn [map fst]. repeat (constructor; [cbn; intuition discriminate|]). constructor. }
  constructor; [|constructor; [|constructor; [|constructor; [|constructor]]]]; cbn [fst snd]; (split; [eexists; split; [constructor|split; [carry|reflexivity]]|]).
  - apply json_tuple. constructor; [constructor|]. constructor; [constructor|]. constructor; [apply json_finite; [exact I|exact P1]|constructor].
  - eapply json_dict; [reflexivity|constructor|constructor].
  - apply json_list. constructor; [apply json_finite; [exact I|exact P2]|]. constructor; [|constructor]. apply json_special. intros [].
  - apply json_text. carry.
Qed.
(* Two keys with the same text leave one, and a high surrogate before a low one is read as one character. *)
Example C74_counterexample :
  (do t <- json_serialize env0 (VDict false [(VInt 1, VStr $"a"); (VStr $"1", VStr $"b")]); json_unserialize env0 t) = Ok (VDict false [(VStr $"1", VStr $"b")])
  /\ (do t <- json_serialize env0 (VStr [55357; 56832]); json_unserialize env0 t) = Ok (VStr [128512]).
Proof. split; vm_compute; reflexivity. Qed.
@end *)

Lemma document_json E v : document E v -> json E v v.
Proof.
  induction v as [v IH] using val_ind'. intros H. destruct H as [|b|z|f Hf|s Hs|l Hl|l Hn Hk Hl].
  - constructor.
  - constructor.
  - constructor.
  - destruct f; [apply json_finite; [exact I|apply Hf; exact I]|apply json_special; intros []|apply json_special; intros []|apply json_finite; [exact I|apply Hf; exact I]].
  - constructor. exact Hs.
  - constructor. assert (Hin : forall u, In u l -> In u (subvals (VList l))) by (intros u Hu; exact Hu).
    revert Hin. generalize (VList l) at 1 as big. clear - IH Hl.
    assert (Hall : forall u, In u l -> json E u u) by (intros u Hu; apply IH; [exact Hu|apply Hl; exact Hu]). clear IH Hl.
    intros _ _. induction l as [|u l IHl]; constructor; [apply Hall; left; reflexivity|]. apply IHl. intros x Hx. apply Hall. right. exact Hx.
  - apply (json_dict E (VDict false l) l l eq_refl); [|exact Hn].
    assert (Hall : forall k u, In (k, u) l -> (exists t, key_text E k t /\ carried t /\ k = VStr t) /\ json E u u).
    { intros k u Hu. split.
      - destruct (Hk k u Hu) as [s [-> Hs]]. exists s. split; [constructor|split; [exact Hs|reflexivity]].
      - apply IH; [|exact (Hl k u Hu)]. cbn [subvals]. apply in_flat_map. exists (k, u). split; [exact Hu|right; left; reflexivity]. }
    clear IH Hn Hk Hl. induction l as [|[k u] l IHl]; constructor; [apply Hall; left; reflexivity|].
    apply IHl. intros k' u' Hu. apply Hall. right. exact Hu.
Qed.

(** @prop C74 In particular the documents of JSON, lists and plain dicts with text keys, come back
    exactly. *)
Lemma json_documents :
  forall E v,
    document E v ->
    exists t, json_serialize E v = Ok t /\ json_unserialize E t = Ok v.
Proof.
  intros E v H. destruct (json_roundtrip E v v (document_json E v H)) as [t [H1 [_ H2]]]. exists t. split; assumption.
Qed.

(** @example
Example C74_documents_example : document env74 back74 /\ (do t <- json_serialize env74 back74; json_unserialize env74 t) = Ok back74.
Proof.
  split; [|vm_compute; reflexivity]. destruct C74_prints as [P1 P2]. unfold back74. apply doc_dict.
  - cbn [map fst]. repeat (constructor; [cbn; intuition discriminate|]). constructor.
  - cbn [In]. intros k v H. repeat destruct H as [H|H]; try contradiction; injection H as <- _; eexists; (split; [reflexivity|carry]).
  - cbn [In]. intros k v H. repeat destruct H as [H|H]; try contradiction; injection H as _ <-.
    + apply doc_list. cbn [In]. intros v H. repeat destruct H as [H|H]; try contradiction; subst v; constructor. intros _. exact P1.
    + apply doc_dict; [constructor|intros ? ? []|intros ? ? []].
    + apply doc_list. cbn [In]. intros v H. repeat destruct H as [H|H]; try contradiction; subst v; constructor; [intros _; exact P2|intros []].
    + constructor. carry.
Qed.
@end *)

Lemma dump_fails E v : (exists t, json_serialize E v = Ok t /\ dumpable v) \/ (json_serialize E v = py TypeError /\ ~ dumpable v).
Proof.
  induction v as [v IH] using val_ind'.
  assert (Hlist : forall l, (forall u, In u l -> In u (subvals v)) ->
     (exists ts, (fix go (l : list val) : res (list str) :=
         match l with [] => Ok [] | x :: l' => do t <- json_serialize E x; do r <- go l'; Ok (t :: r) end) l = Ok ts /\ forall u, In u l -> dumpable u)
     \/ ((fix go (l : list val) : res (list str) :=
         match l with [] => Ok [] | x :: l' => do t <- json_serialize E x; do r <- go l'; Ok (t :: r) end) l = py TypeError
         /\ exists u, In u l /\ ~ dumpable u)).
  { induction l as [|u l IHl]; intros Hin; [left; exists []; split; [reflexivity|intros x []]|].
    destruct (IH u (Hin u (or_introl eq_refl))) as [[t [Ht Hd]]|[Ht Hd]].
    - rewrite Ht. cbn [bind]. destruct IHl as [[ts [-> Hall]]|[-> [x [Hx Hn]]]]; [intros x Hx; apply Hin; right; exact Hx| |].
      + left. exists (t :: ts). split; [reflexivity|]. intros x [<-|Hx]; [exact Hd|apply Hall; exact Hx].
      + right. split; [reflexivity|]. exists x. split; [right; exact Hx|exact Hn].
    - right. rewrite Ht. split; [reflexivity|]. exists u. split; [left; reflexivity|exact Hd]. }
  assert (Hdict : forall l, (forall k u, In (k, u) l -> In u (subvals v)) ->
     (exists ts, (fix go (l : list (val * val)) : res (list str) :=
         match l with
         | [] => Ok []
         | (k, x) :: l' => match json_key E k with
             | None => py TypeError
             | Some kt => do t <- json_serialize E x; do r <- go l'; Ok ((json_quote kt ++ $": " ++ t) :: r)
             end
         end) l = Ok ts /\ forall k u, In (k, u) l ->
           match k with VStr _ | VInt _ | VBool _ | VNone | VFloat _ => True | _ => False end /\ dumpable u)
     \/ ((fix go (l : list (val * val)) : res (list str) :=
         match l with
         | [] => Ok []
         | (k, x) :: l' => match json_key E k with
             | None => py TypeError
             | Some kt => do t <- json_serialize E x; do r <- go l'; Ok ((json_quote kt ++ $": " ++ t) :: r)
             end
         end) l = py TypeError
         /\ exists k u, In (k, u) l /\ ~ (match k with VStr _ | VInt _ | VBool _ | VNone | VFloat _ => True | _ => False end /\ dumpable u))).
  { induction l as [|[k u] l IHl]; intros Hin; [left; exists []; split; [reflexivity|intros k x []]|].
    assert (Hkey : (exists kt, json_key E k = Some kt /\ match k with VStr _ | VInt _ | VBool _ | VNone | VFloat _ => True | _ => False end)
                   \/ (json_key E k = None /\ ~ match k with VStr _ | VInt _ | VBool _ | VNone | VFloat _ => True | _ => False end)).
    { destruct k; try (right; split; [reflexivity|intros []]; fail); left; try (eexists; split; [reflexivity|exact I]).
      destruct b; eexists; (split; [reflexivity|exact I]). }
    destruct Hkey as [[kt [-> Hk]]|[-> Hk]]; [|right; split; [reflexivity|]; exists k, u; split; [left; reflexivity|tauto]].
    destruct (IH u (Hin k u (or_introl eq_refl))) as [[t [Ht Hd]]|[Ht Hd]].
    - rewrite Ht. cbn [bind]. destruct IHl as [[ts [-> Hall]]|[-> [k' [x [Hx Hn]]]]]; [intros k' x Hx; apply (Hin k'); right; exact Hx| |].
      + left. eexists. split; [reflexivity|]. intros k' x [[= <- <-]|Hx]; [split; assumption|apply Hall; exact Hx].
      + right. split; [reflexivity|]. exists k', x. split; [right; exact Hx|exact Hn].
    - right. rewrite Ht. split; [reflexivity|]. exists k, u. split; [left; reflexivity|tauto]. }
  assert (Hl : forall l, v = VList l \/ v = VTuple l -> forall u, In u l -> In u (subvals v)) by (intros l [-> | ->] u Hu; exact Hu).
  assert (Hd : forall l, as_dict v = Some l -> forall k u, In (k, u) l -> In u (subvals v)).
  { intros l Hl' k u Hu. destruct v; try discriminate Hl'; injection Hl' as ->; cbn [subvals]; apply in_flat_map; exists (k, u); (split; [exact Hu|right; left; reflexivity]). }
  destruct v as [|b|z|f|s|s|d|d|d|d|l|l|o l|i l|i sc ve l|e|f];
    try (left; eexists; split; [reflexivity|constructor]; fail);
    try (right; split; [reflexivity|intros H; inversion H; discriminate]; fail).
  - left. destruct b; eexists; (split; [reflexivity|constructor]).
  - cbn [json_serialize]. destruct (Hlist l (Hl l (or_introl eq_refl))) as [[ts [-> Hall]]|[-> [u [Hu Hn]]]].
    + left. eexists. split; [reflexivity|]. constructor. exact Hall.
    + right. split; [reflexivity|]. intros H. inversion H as [| | | | |? Hall| |? ? Hx]; subst; [apply Hn, Hall, Hu|discriminate Hx].
  - cbn [json_serialize]. destruct (Hlist l (Hl l (or_intror eq_refl))) as [[ts [-> Hall]]|[-> [u [Hu Hn]]]].
    + left. eexists. split; [reflexivity|]. constructor. exact Hall.
    + right. split; [reflexivity|]. intros H. inversion H as [| | | | | |? Hall|? ? Hx]; subst; [apply Hn, Hall, Hu|discriminate Hx].
  - cbn [json_serialize]. destruct (Hdict l (Hd l eq_refl)) as [[ts [-> Hall]]|[-> [k [u [Hu Hn]]]]].
    + left. eexists. split; [reflexivity|]. apply (dump_dict (VDict o l) l eq_refl). exact Hall.
    + right. split; [reflexivity|]. intros H. inversion H as [| | | | | | |? l' Hx Hall]; subst. injection Hx as ->. apply Hn, (Hall k u Hu).
  - cbn [json_serialize]. destruct (Hdict l (Hd l eq_refl)) as [[ts [-> Hall]]|[-> [k [u [Hu Hn]]]]].
    + left. eexists. split; [reflexivity|]. apply (dump_dict (VSurr i sc ve l) l eq_refl). exact Hall.
    + right. split; [reflexivity|]. intros H. inversion H as [| | | | | | |? l' Hx Hall]; subst. injection Hx as ->. apply Hn, (Hall k u Hu).
Qed.

(** @prop C74 [json.dumps] writes exactly the values made of null, booleans, numbers, texts, lists,
    tuples and dicts with simple keys; any other value inside is a TypeError. *)
Lemma json_refuses :
  forall E v,
    (dumpable v <-> exists t, json_serialize E v = Ok t)
    /\ (~ dumpable v -> json_serialize E v = py TypeError).
Proof.
  intros E v. destruct (dump_fails E v) as [[t [Ht Hd]]|[Ht Hd]].
  - split; [|contradiction]. split; [intros _; exists t; exact Ht|intros _; exact Hd].
  - split; [|intros _; exact Ht]. split; [contradiction|]. intros [t H]. rewrite Ht in H. discriminate.
Qed.

(** @example
Example C74_refuses_example :
  ~ dumpable (VList [VStr $"a"; VDict false [(VStr $"k", VBytes [1])]])
  /\ json_serialize env0 (VList [VStr $"a"; VDict false [(VStr $"k", VBytes [1])]]) = py TypeError
  /\ json_serialize env0 (VDict false [(VTuple [], VNone)]) = py TypeError.
Proof.
  split; [|split; vm_compute; reflexivity]. intros H. inversion H as [| | | | |? Hl| |? ? Hd]; subst; [|discriminate Hd].
  specialize (Hl _ (or_intror (or_introl eq_refl))). inversion Hl as [| | | | | | |? ? Hd Hx]; subst. injection Hd as <-.
  destruct (Hx _ _ (or_introl eq_refl)) as [_ Hb]. inversion Hb as [| | | | | | |? ? Hd]; subst. discriminate Hd.
Qed.
@end *)

(** ** Reading any text *)

Definition fine {A} (bound : nat) (r : res (A * str)) : Prop :=
  match r with Ok x => (length (snd x) < bound)%nat | Raise e => e = XPy ValueError end.

Lemma json_chars_length s : forall p t r, json_chars p s = Some (t, r) -> (length r < length s)%nat.
Proof.
  induction s as [s IH] using (well_founded_induction (well_founded_ltof _ (@length N))). unfold ltof in IH.
  intros p t r. destruct s as [|c s]; cbn [json_chars]; [discriminate|].
  destruct (c =? 34); [intros [= <- <-]; cbn [length]; lia|].
  destruct (c =? 92).
  - destruct s as [|e s1]; [discriminate|]. destruct (e =? 117).
    + destruct s1 as [|w [|x [|y [|z s2]]]]; try discriminate. destruct (json_code w x y z) as [d|]; [|discriminate].
      assert (Hlt : (length s2 < length (c :: e :: w :: x :: y :: z :: s2))%nat) by (cbn [length]; lia).
      destruct p as [h|].
      * destruct (json_chars None s2) as [[t' r']|] eqn:H; [|discriminate]. intros [= <- <-]. apply (IH s2 Hlt) in H. lia.
      * destruct (if high_surrogate d then second_half s2 else None) as [d'|].
        -- intros H. apply (IH s2 Hlt) in H. lia.
        -- destruct (json_chars None s2) as [[t' r']|] eqn:H; [|discriminate]. intros [= <- <-]. apply (IH s2 Hlt) in H. lia.
    + assert (Hlt : (length s1 < length (c :: e :: s1))%nat) by (cbn [length]; lia).
      destruct (json_unescape e); [|discriminate]. destruct (json_chars None s1) as [[t' r']|] eqn:H; [|discriminate].
      intros [= <- <-]. apply (IH s1 Hlt) in H. lia.
  - destruct (c <? 32); [discriminate|]. assert (Hlt : (length s < length (c :: s))%nat) by (cbn [length]; lia).
    destruct (json_chars None s) as [[t' r']|] eqn:H; [|discriminate]. intros [= <- <-]. apply (IH s Hlt) in H. lia.
Qed.

Lemma span_split p s a b : span p s = (a, b) -> s = a ++ b.
Proof.
  revert a b. induction s as [|c s IH]; cbn [span]; intros a b; [intros [= <- <-]; reflexivity|].
  destruct (p c); [|intros [= <- <-]; reflexivity]. intros [= <- <-]. cbn [app]. f_equal. apply IH. apply surjective_pairing.
Qed.

Lemma skip_white_suffix s : exists a, s = a ++ skip_white s.
Proof. unfold skip_white. exists (fst (span json_white s)). apply (span_split json_white). apply surjective_pairing. Qed.

Lemma skip_white_length s : (length (skip_white s) <= length s)%nat.
Proof. destruct (skip_white_suffix s) as [a H]. rewrite H at 2. rewrite app_length. lia. Qed.

Lemma fraction_split s a b : json_fraction s = (a, b) -> s = a ++ b.
Proof.
  unfold json_fraction. destruct s as [|c s]; [intros [= <- <-]; reflexivity|]. destruct (c =? 46); [|intros [= <- <-]; reflexivity].
  destruct (span is_digit s) as [ds r] eqn:H. apply span_split in H. destruct ds; intros [= <- <-]; [reflexivity|]. rewrite H. reflexivity.
Qed.

Lemma exponent_split s a b : json_exponent s = (a, b) -> s = a ++ b.
Proof.
  unfold json_exponent. destruct s as [|c s]; [intros [= <- <-]; reflexivity|]. destruct (_ || _); [|intros [= <- <-]; reflexivity].
  destruct s as [|d s]; [cbn [span]; intros [= <- <-]; reflexivity|].
  destruct ((d =? 45) || (d =? 43)).
  - destruct (span is_digit s) as [ds r] eqn:H. apply span_split in H. destruct ds; intros [= <- <-]; [reflexivity|]. rewrite H. reflexivity.
  - destruct (span is_digit (d :: s)) as [ds r] eqn:H.
    apply span_split in H. destruct ds; intros [= <- <-]; [reflexivity|]. rewrite H. reflexivity.
Qed.

Lemma number_suffix E s : match json_number E s with
                          | Ok (v, r) => (exists a, a <> [] /\ s = a ++ r) /\ ((exists z, v = VInt z) \/ exists f, v = VFloat f)
                          | Raise x => x = XPy ValueError
                          end.
Proof.
  unfold json_number. destruct (json_minus s) as [sg s1] eqn:H1.
  assert (Hs : s = sg ++ s1) by (unfold json_minus in H1; destruct s as [|c s']; [|destruct (c =? 45)]; injection H1 as <- <-; reflexivity).
  destruct (json_whole s1) as [ip s2] eqn:H2.
  assert (Hs1 : s1 = ip ++ s2).
  { unfold json_whole in H2. destruct s1 as [|c s']; [injection H2 as <- <-; reflexivity|]. destruct (c =? 48); [injection H2 as <- <-; reflexivity|].
    apply (span_split is_digit). exact H2. }
  destruct ip as [|c ip]; [reflexivity|]. destruct (json_fraction s2) as [fr s3] eqn:H3. destruct (json_exponent s3) as [ex s4] eqn:H4.
  apply fraction_split in H3. apply exponent_split in H4.
  assert (Hr : exists a, a <> [] /\ s = a ++ s4).
  { exists (sg ++ (c :: ip) ++ fr ++ ex). split; [destruct sg; discriminate|]. rewrite Hs, Hs1, H3, H4, <- !app_assoc. reflexivity. }
  destruct (fr ++ ex).
  - destruct (parse_int _ _) as [z|]; [|reflexivity]. split; [exact Hr|]. left. exists z. reflexivity.
  - destruct (parse_float _ _) as [f|]; [|reflexivity]. split; [exact Hr|]. right. exists f. reflexivity.
Qed.

Lemma starts_with_split p s : starts_with p s = true -> s = p ++ skipn (length p) s.
Proof. unfold starts_with. intros H. apply str_eqb_eq in H. rewrite <- H at 1. symmetry. apply firstn_skipn. Qed.

Lemma word_suffix E s : match json_word E s with
                        | Ok (v, r) => (exists a, a <> [] /\ s = a ++ r)
                            /\ match v with VNone | VBool _ | VInt _ | VFloat _ => True | _ => False end
                        | Raise x => x = XPy ValueError
                        end.
Proof.
  unfold json_word.
  repeat match goal with
         | |- context [if starts_with ?w s then _ else _] =>
             let H := fresh "H" in destruct (starts_with w s) eqn:H;
             [apply starts_with_split in H; split; [exists w; split; [discriminate|exact H]|exact I]|clear H]
         end.
  assert (H := number_suffix E s). destruct (json_number E s) as [[v r]|x]; [|exact H].
  destruct H as [H [[z ->]|[f ->]]]; (split; [exact H|exact I]).
Qed.

Lemma json_fine E n :
  (forall s, (2 * length s < n)%nat -> fine (S (length s)) (json_value E n s) /\ (s <> [] -> fine (length s) (json_value E n s)))
  /\ (forall s, (2 * length s + 1 < n)%nat -> fine (S (length s)) (json_items E n s))
  /\ (forall acc s, (2 * length s + 1 < n)%nat -> fine (S (length s)) (json_members E n acc s)).
Proof.
  induction n as [|n [IHv [IHi IHm]]]; [split; [|split]; intros; lia|].
  assert (Hvalue : forall s, (2 * length s < S n)%nat -> s <> [] -> fine (length s) (json_value E (S n) s)).
  { intros [|c s] Hn Hne; [congruence|]. cbn [json_value]. fold (json_items E) (json_members E).
    destruct (N.eqb_spec c 34) as [->|H34].
    - destruct (json_chars None s) as [[t r]|] eqn:H; [|reflexivity]. apply json_chars_length in H. cbn [fine snd length]. lia.
    - destruct (N.eqb_spec c 91) as [->|H91].
      + assert (Hw := skip_white_length s). destruct (skip_white s) as [|d r]; [reflexivity|]. cbn [length] in *.
        destruct (d =? 93); [cbn [fine snd]; lia|].
        assert (Hi := IHi (d :: r) ltac:(cbn [length] in *; lia)).
        change (fine (S (length s)) (do x <- json_items E n (d :: r); Ok (VList (fst x), snd x))).
        destruct (json_items E n (d :: r)) as [[l x]|e]; cbn [fine bind fst snd length] in *; [lia|exact Hi].
      + destruct (N.eqb_spec c 123) as [->|H123].
        * assert (Hw := skip_white_length s). destruct (skip_white s) as [|d r]; [reflexivity|]. cbn [length] in *.
          destruct (d =? 125); [cbn [fine snd]; lia|].
          assert (Hi := IHm [] (d :: r) ltac:(cbn [length] in *; lia)).
          change (fine (S (length s)) (do x <- json_members E n [] (d :: r); Ok (VDict false (fst x), snd x))).
          destruct (json_members E n [] (d :: r)) as [[l x]|e]; cbn [fine bind fst snd length] in *; [lia|exact Hi].
        * assert (H := word_suffix E (c :: s)). destruct (json_word E (c :: s)) as [[v r]|x]; [|exact H].
          destruct H as [[a [Ha Hs]] _]. cbn [fine snd]. rewrite Hs, app_length. destruct a; [congruence|]. cbn [length]. lia. }
  split; [|split].
  - intros s Hn. split; [|apply Hvalue; exact Hn]. destruct s as [|c s]; [reflexivity|].
    assert (H := Hvalue (c :: s) Hn ltac:(discriminate)). destruct (json_value E (S n) (c :: s)) as [x|e]; [cbn [fine] in *; lia|exact H].
  - intros s Hn. change (json_items E (S n) s) with
      (do x <- json_value E n s;
       match skip_white (snd x) with
       | [] => json_bad
       | d :: r => if d =? 93 then Ok ([fst x], r)
                   else if d =? 44 then do y <- json_items E n (skip_white r); Ok (fst x :: fst y, snd y)
                   else json_bad
       end).
    assert (Hv := proj1 (IHv s ltac:(lia))). destruct (json_value E n s) as [[v r]|e]; cbn [fine bind fst snd] in *; [|exact Hv].
    assert (Hw := skip_white_length r). destruct (skip_white r) as [|d r1]; [reflexivity|]. cbn [length] in Hw.
    destruct (d =? 93); [cbn [fine snd]; lia|]. destruct (d =? 44); [|reflexivity].
    assert (Hw2 := skip_white_length r1). assert (Hi := IHi (skip_white r1) ltac:(lia)).
    destruct (json_items E n (skip_white r1)) as [[l x]|e]; cbn [fine bind fst snd] in *; [lia|exact Hi].
  - intros acc s Hn. change (json_members E (S n) acc s) with
      (match s with
       | [] => json_bad
       | q :: s1 =>
          if q =? 34 then
            match json_chars None s1 with
            | None => json_bad
            | Some (k, s2) =>
                match skip_white s2 with
                | [] => json_bad
                | p :: s3 =>
                    if p =? 58 then
                      do x <- json_value E n (skip_white s3);
                      let acc' := sset k (fst x) acc in
                      match skip_white (snd x) with
                      | [] => json_bad
                      | d :: r => if d =? 125 then Ok (acc', r)
                                  else if d =? 44 then json_members E n acc' (skip_white r)
                                  else json_bad
                      end
                    else json_bad
                end
            end
          else json_bad
       end).
    destruct s as [|q s1]; [reflexivity|]. destruct (q =? 34); [|reflexivity].
    destruct (json_chars None s1) as [[k s2]|] eqn:Hk; [|reflexivity]. apply json_chars_length in Hk.
    assert (Hw := skip_white_length s2). destruct (skip_white s2) as [|p s3]; [reflexivity|]. destruct (p =? 58); [|reflexivity].
    cbn [length] in *. assert (Hw3 := skip_white_length s3).
    assert (Hv := proj1 (IHv (skip_white s3) ltac:(lia))). destruct (json_value E n (skip_white s3)) as [[v r]|e]; cbn [fine bind fst snd] in *; [|exact Hv].
    assert (Hw4 := skip_white_length r). destruct (skip_white r) as [|d r1]; [reflexivity|]. cbn [length] in Hw4.
    destruct (d =? 125); [cbn [fine snd]; lia|]. destruct (d =? 44); [|reflexivity].
    assert (Hw5 := skip_white_length r1). assert (Hi := IHm (sset k v acc) (skip_white r1) ltac:(lia)).
    destruct (json_members E n (sset k v acc) (skip_white r1)) as [[l x]|e]; cbn [fine bind fst snd] in *; [lia|exact Hi].
Qed.

(** @prop C74 [json.loads] of any text gives a value or a ValueError. *)
Lemma json_reads_or_refuses :
  forall E t,
    (exists v, json_unserialize E t = Ok v) \/ json_unserialize E t = py ValueError.
Proof.
  intros E t.
  assert (H : (exists v, (do x <- json_value E (S (2 * length t)) (skip_white t);
                          match skip_white (snd x) with [] => Ok (fst x) | _ => json_bad end) = Ok v)
              \/ (do x <- json_value E (S (2 * length t)) (skip_white t);
                          match skip_white (snd x) with [] => Ok (fst x) | _ => json_bad end) = py ValueError).
  { assert (Hw := skip_white_length t). assert (Hf := proj1 (proj1 (json_fine E (S (2 * length t))) (skip_white t) ltac:(lia))).
    destruct (json_value E (S (2 * length t)) (skip_white t)) as [[v r]|e]; cbn [fine bind fst snd] in *; [|subst e; right; reflexivity].
    destruct (skip_white r); [left; exists v; reflexivity|right; reflexivity]. }
  unfold json_unserialize. destruct t as [|c t]; [exact H|].
  destruct c as [|p]; [exact H|]. do 16 (destruct p as [p|p|]; try exact H).
Qed.

(** @example
Example C74_reads_example :
  json_unserialize env0 ($" { ""a"" : [1, -0, 2.5e1, true] , ""a"": ""\u0041\/"" }") = Ok (VDict false [(VStr $"a", VStr $"A/")])
  /\ json_unserialize env0 ($"[1, 2") = py ValueError /\ json_unserialize env0 ($"[1,]") = py ValueError
  /\ json_unserialize env0 ($"01") = py ValueError /\ json_unserialize env0 ($"") = py ValueError.
Proof. repeat split; vm_compute; reflexivity. Qed.
@end *)

(** ** Reading again what was read *)

Lemma no_surrogates_app a b : no_surrogates (a ++ b) <-> no_surrogates a /\ no_surrogates b.
Proof.
  unfold no_surrogates. split; [intros H; split; intros c Hc; apply H, in_or_app; [left|right]; exact Hc|].
  intros [H1 H2] c Hc. apply in_app_or in Hc. destruct Hc; [apply H1|apply H2]; assumption.
Qed.

Lemma no_surrogates_tail c s : no_surrogates (c :: s) -> no_surrogates s.
Proof. intros H d Hd. apply H. right. exact Hd. Qed.

Lemma json_code_bound w x y z d : json_code w x y z = Some d -> d < 65536.
Proof.
  assert (Hb : forall c n, hex_digit c = Some n -> n < 16).
  { intros c n. unfold hex_digit.
    destruct ((48 <=? c) && (c <=? 57)) eqn:H1; [intros [= <-]; lia|].
    destruct ((97 <=? c) && (c <=? 102)) eqn:H2; [intros [= <-]; lia|].
    destruct ((65 <=? c) && (c <=? 70)) eqn:H3; [intros [= <-]; lia|discriminate]. }
  unfold json_code. destruct (hex_digit w) as [a|] eqn:Ha; [|discriminate]. destruct (hex_digit x) as [b|] eqn:Hbx; [|discriminate].
  destruct (hex_digit y) as [c|] eqn:Hc; [|discriminate]. destruct (hex_digit z) as [e|] eqn:He; [|discriminate].
  apply Hb in Ha, Hbx, Hc, He. intros H. apply some_inj in H. subst d. lia.
Qed.

Lemma unescape_plain e c : json_unescape e = Some c -> c < 128.
Proof.
  unfold json_unescape. repeat match goal with |- (if ?b then _ else _) = _ -> _ => destruct b; [intros [= <-]; lia|] end. discriminate.
Qed.

Lemma carried_cons c t : c < 1114112 -> carried t ->
  (55296 <= c < 56320 -> forall l b, t = l :: b -> ~ (56320 <= l < 57344)) -> carried (c :: t).
Proof.
  intros Hc [H1 H2] H3. split; [intros d [<-|Hd]; [exact Hc|apply H1; exact Hd]|].
  intros a h l b Heq. destruct a as [|x a]; cbn [app] in Heq.
  - injection Heq as <- ->. intros [Hh Hl]. apply (H3 Hh l b eq_refl Hl).
  - injection Heq as _ Heq. apply (H2 a h l b Heq).
Qed.

Lemma json_chars_carried s : forall p t r, json_chars p s = Some (t, r) -> no_surrogates s ->
  match p with Some h => 55296 <= h < 56320 /\ second_half s <> None | None => True end ->
  carried t /\ no_surrogates r /\ (forall l b, t = l :: b -> 56320 <= l < 57344 -> p = None /\ second_half s <> None).
Proof.
  induction s as [s IH] using (well_founded_induction (well_founded_ltof _ (@length N))). unfold ltof in IH.
  intros p t r H Hs Hp. destruct s as [|c s]; [discriminate H|].
  assert (Hc0 := Hs c (or_introl eq_refl)). cbn [json_chars] in H.
  destruct (c =? 34) eqn:E34.
  { injection H as <- <-. split; [split; [intros d []|intros a h l b Heq; destruct a; discriminate Heq]|].
    split; [apply (no_surrogates_tail c); exact Hs|discriminate]. }
  destruct (c =? 92) eqn:E92.
  - destruct s as [|e s1]; [discriminate H|]. destruct (e =? 117) eqn:E117.
    + destruct s1 as [|w [|x [|y [|z s2]]]]; try discriminate H. destruct (json_code w x y z) as [d|] eqn:Hd; [|discriminate H].
      assert (Hdb := json_code_bound _ _ _ _ _ Hd).
      assert (Hlt : (length s2 < length (c :: e :: w :: x :: y :: z :: s2))%nat) by (cbn [length]; lia).
      assert (Hs2 : no_surrogates s2) by (do 6 apply no_surrogates_tail in Hs; exact Hs).
      assert (Hsec : second_half (c :: e :: w :: x :: y :: z :: s2) = if low_surrogate d then Some d else None).
      { unfold second_half. rewrite E92, E117. cbn [andb]. rewrite Hd. reflexivity. }
      rewrite Hsec in *.
      destruct p as [h|].
      * destruct Hp as [Hh Hlow]. destruct (low_surrogate d) eqn:Hl; [|congruence]. unfold low_surrogate in Hl.
        destruct (json_chars None s2) as [[t' r']|] eqn:H2; [|discriminate H]. apply some_inj in H; apply pair_equal_spec in H; destruct H as [<- <-].
        destruct (IH s2 Hlt None t' r' H2 Hs2 I) as [Hc1 [Hr1 _]].
        split; [apply carried_cons; [lia|exact Hc1|intros Hx0; exfalso; lia]|]. split; [exact Hr1|]. intros l b Heq Hlb. apply (f_equal (hd 0)) in Heq; cbn [hd] in Heq. lia.
      * destruct (high_surrogate d) eqn:Hh; unfold high_surrogate in Hh.
        -- destruct (second_half s2) as [d'|] eqn:H2h.
           ++ destruct (IH s2 Hlt (Some d) t r H Hs2 ltac:(split; [lia|congruence])) as [Hc1 [Hr1 Hf]].
              split; [exact Hc1|]. split; [exact Hr1|]. intros l b Ht Hlb. destruct (Hf l b Ht Hlb) as [Hno _]. discriminate Hno.
           ++ destruct (json_chars None s2) as [[t' r']|] eqn:H2; [|discriminate H]. injection H as <- <-.
              destruct (IH s2 Hlt None t' r' H2 Hs2 I) as [Hc1 [Hr1 Hf]].
              split; [apply carried_cons; [lia|exact Hc1|]|].
              { intros _ l b Ht Hlb. destruct (Hf l b Ht Hlb) as [_ Hno]. congruence. }
              split; [exact Hr1|]. intros l b [= <- _] Hlb. lia.
        -- destruct (json_chars None s2) as [[t' r']|] eqn:H2; [|discriminate H]. injection H as <- <-.
           destruct (IH s2 Hlt None t' r' H2 Hs2 I) as [Hc1 [Hr1 Hf]].
           split; [apply carried_cons; [lia|exact Hc1|intros Hx0; exfalso; lia]|]. split; [exact Hr1|].
           intros l b [= <- _] Hlb. split; [reflexivity|]. unfold low_surrogate. destruct ((56320 <=? d) && (d <? 57344)) eqn:Hl; [discriminate|lia].
    + assert (Hlt : (length s1 < length (c :: e :: s1))%nat) by (cbn [length]; lia).
      assert (Hs2 : no_surrogates s1) by (do 2 apply no_surrogates_tail in Hs; exact Hs).
      destruct (json_unescape e) as [d|] eqn:Hd; [|discriminate H]. apply unescape_plain in Hd.
      destruct (json_chars None s1) as [[t' r']|] eqn:H2; [|discriminate H]. injection H as <- <-.
      destruct (IH s1 Hlt None t' r' H2 Hs2 I) as [Hc1 [Hr1 Hf]].
      split; [apply carried_cons; [lia|exact Hc1|intros Hx0; exfalso; lia]|]. split; [exact Hr1|]. intros l b [= <- _] Hlb. lia.
  - destruct (c <? 32); [discriminate H|]. assert (Hlt : (length s < length (c :: s))%nat) by (cbn [length]; lia).
    assert (Hs2 : no_surrogates s) by (apply no_surrogates_tail in Hs; exact Hs).
    destruct (json_chars None s) as [[t' r']|] eqn:H2; [|discriminate H]. injection H as <- <-.
    destruct (IH s Hlt None t' r' H2 Hs2 I) as [Hc1 [Hr1 Hf]].
    split; [apply carried_cons; [lia|exact Hc1|intros Hx0; exfalso; lia]|]. split; [exact Hr1|]. intros l b [= <- _] Hlb. lia.
Qed.

Lemma sset_entries k x acc k' v : In (k', v) (sset k x acc) -> (k' = VStr k /\ v = x) \/ In (k', v) acc.
Proof.
  induction acc as [|[k0 v0] acc IH]; cbn [sset]; [intros [[= <- <-]|[]]; left; split; reflexivity|].
  destruct k0; try (intros [H|H]; [right; left; exact H|destruct (IH H); [left; assumption|right; right; assumption]]).
  destruct (str_eqb k s) eqn:Hk.
  - apply str_eqb_eq in Hk. subst s. intros [[= <- <-]|H]; [left; split; reflexivity|right; right; exact H].
  - intros [H|H]; [right; left; exact H|destruct (IH H); [left; assumption|right; right; assumption]].
Qed.

Lemma sset_keys k x acc : NoDup (map fst acc) -> NoDup (map fst (sset k x acc)).
Proof.
  intros H. assert (Hor : map fst (sset k x acc) = map fst acc \/ sset k x acc = acc ++ [(VStr k, x)] /\ ~ In (VStr k) (map fst acc)).
  { clear H. induction acc as [|[k0 v0] acc IH]; [right; split; [reflexivity|intros []]|]. cbn [sset].
    destruct k0; try (cbn [map fst]; destruct IH as [->|[-> Hn]]; [left; reflexivity|right; split; [reflexivity|intros [H|H]; [discriminate H|contradiction]]]).
    destruct (str_eqb k s) eqn:Hk; [left; reflexivity|]. cbn [map fst].
    destruct IH as [->|[-> Hn]]; [left; reflexivity|right; split; [reflexivity|intros [H|H]; [injection H as ->; rewrite str_eqb_refl in Hk; discriminate|contradiction]]]. }
  destruct Hor as [->|[-> Hn]]; [exact H|]. rewrite map_app. cbn [map fst].
  clear - H Hn. induction (map fst acc) as [|a l IH]; [repeat constructor; intros []|]. cbn [app]. inversion H as [|? ? Ha Hl]; subst. constructor.
  - rewrite in_app_iff. intros [Hi|[<-|[]]]; [contradiction|apply Hn; left; reflexivity].
  - apply IH; [exact Hl|intros Hi; apply Hn; right; exact Hi].
Qed.

Definition shown (E : env) (v : val) : Prop := floats_print E v -> document E v.

Lemma fp_list_inv E l : floats_print E (VList l) -> forall v, In v l -> floats_print E v.
Proof. intros H. inversion H as [|? Hl| |? Hx]; subst; [exact Hl|contradiction]. Qed.
Lemma fp_dict_inv E o l : floats_print E (VDict o l) -> forall k v, In (k, v) l -> floats_print E v.
Proof. intros H. inversion H as [| |? ? Hl|? Hx]; subst; [exact Hl|contradiction]. Qed.

Definition entries_shown (E : env) (l : list (val * val)) : Prop :=
  NoDup (map fst l) /\ (forall k v, In (k, v) l -> (exists s, k = VStr s /\ carried s) /\ shown E v).

Lemma suffix_surrogates s r : (exists a, s = a ++ r) -> no_surrogates s -> no_surrogates r.
Proof. intros [a ->] H. apply no_surrogates_app in H. apply H. Qed.

Lemma skip_white_surrogates s : no_surrogates s -> no_surrogates (skip_white s).
Proof. apply suffix_surrogates, skip_white_suffix. Qed.

Lemma json_shown E n :
  (forall s v r, json_value E n s = Ok (v, r) -> no_surrogates s -> shown E v /\ no_surrogates r)
  /\ (forall s l r, json_items E n s = Ok (l, r) -> no_surrogates s -> (forall v, In v l -> shown E v) /\ no_surrogates r)
  /\ (forall s acc l r, json_members E n acc s = Ok (l, r) -> no_surrogates s -> entries_shown E acc -> entries_shown E l /\ no_surrogates r).
Proof.
  induction n as [|n [IHv [IHi IHm]]]; [split; [|split]; intros; discriminate|].
  split; [|split].
  - intros [|c s] v r H Hs; [discriminate H|]. assert (Hs' := no_surrogates_tail _ _ Hs).
    destruct (N.eq_dec c 34) as [->|H34].
    { change (match json_chars None s with Some (t, r') => Ok (VStr t, r') | None => json_bad end = Ok (v, r)) in H.
      destruct (json_chars None s) as [[t r']|] eqn:Ht; [|discriminate H]. injection H as <- <-.
      destruct (json_chars_carried s None t r' Ht Hs' I) as [Hc [Hr _]]. split; [intros _; constructor; exact Hc|exact Hr]. }
    destruct (N.eq_dec c 91) as [->|H91].
    { rewrite json_value_array in H. assert (Hw := skip_white_surrogates s Hs'). destruct (skip_white s) as [|d x]; [discriminate H|].
      destruct (d =? 93); [injection H as <- <-; split; [intros _; constructor; intros u []|exact (no_surrogates_tail _ _ Hw)]|].
      destruct (json_items E n (d :: x)) as [[l y]|e] eqn:Hi; [|discriminate H]. cbn [bind fst snd] in H. injection H as <- <-.
      destruct (IHi _ _ _ Hi Hw) as [Hl Hy]. split; [|exact Hy]. intros Hf. constructor. intros u Hu. apply Hl; [exact Hu|]. apply (fp_list_inv E l Hf). exact Hu. }
    destruct (N.eq_dec c 123) as [->|H123].
    { rewrite json_value_object in H. assert (Hw := skip_white_surrogates s Hs'). destruct (skip_white s) as [|d x]; [discriminate H|].
      destruct (d =? 125); [injection H as <- <-; split; [intros _; constructor; [constructor|intros k u []|intros k u []]|exact (no_surrogates_tail _ _ Hw)]|].
      destruct (json_members E n [] (d :: x)) as [[l y]|e] eqn:Hi; [|discriminate H]. cbn [bind fst snd] in H. injection H as <- <-.
      destruct (IHm _ _ _ _ Hi Hw ltac:(split; [constructor|intros k u []])) as [[Hn Hl] Hy]. split; [|exact Hy]. intros Hf. constructor; [exact Hn| |].
      - intros k u Hu. apply (Hl k u Hu).
      - intros k u Hu. apply (Hl k u Hu). apply (fp_dict_inv E false l Hf k u Hu). }
    assert (Hw : json_word E (c :: s) = Ok (v, r)).
    { cbn [json_value] in H. apply N.eqb_neq in H34, H91, H123. rewrite H34, H91, H123 in H. exact H. }
    assert (Hx := word_suffix E (c :: s)). rewrite Hw in Hx. destruct Hx as [[a [_ Ha]] Hv].
    split; [|apply (suffix_surrogates (c :: s)); [exists a; exact Ha|exact Hs]].
    intros Hf. destruct v; try contradiction; try constructor.
    inversion Hf as [? Hf0| | |? Hx]; subst; [exact Hf0|contradiction].
  - intros s l r H Hs. change (json_items E (S n) s) with
      (do x <- json_value E n s;
       match skip_white (snd x) with
       | [] => json_bad
       | d :: r => if d =? 93 then Ok ([fst x], r)
                   else if d =? 44 then do y <- json_items E n (skip_white r); Ok (fst x :: fst y, snd y)
                   else json_bad
       end) in H.
    destruct (json_value E n s) as [[v x]|e] eqn:Hv; [|discriminate H]. cbn [bind fst snd] in H.
    destruct (IHv _ _ _ Hv Hs) as [Hsh Hx]. assert (Hw := skip_white_surrogates x Hx). destruct (skip_white x) as [|d y]; [discriminate H|].
    assert (Hy := no_surrogates_tail _ _ Hw).
    destruct (d =? 93); [injection H as <- <-; split; [intros u [<-|[]]; exact Hsh|exact Hy]|]. destruct (d =? 44); [|discriminate H].
    destruct (json_items E n (skip_white y)) as [[l' z]|e] eqn:Hi; [|discriminate H]. cbn [bind fst snd] in H. injection H as <- <-.
    destruct (IHi _ _ _ Hi (skip_white_surrogates y Hy)) as [Hl Hz]. split; [intros u [<-|Hu]; [exact Hsh|apply Hl; exact Hu]|exact Hz].
  - intros s acc l r H Hs Hacc. change (json_members E (S n) acc s) with
      (match s with
       | [] => json_bad
       | q :: s1 =>
          if q =? 34 then
            match json_chars None s1 with
            | None => json_bad
            | Some (k, s2) =>
                match skip_white s2 with
                | [] => json_bad
                | p :: s3 =>
                    if p =? 58 then
                      do x <- json_value E n (skip_white s3);
                      let acc' := sset k (fst x) acc in
                      match skip_white (snd x) with
                      | [] => json_bad
                      | d :: r => if d =? 125 then Ok (acc', r)
                                  else if d =? 44 then json_members E n acc' (skip_white r)
                                  else json_bad
                      end
                    else json_bad
                end
            end
          else json_bad
       end) in H.
    destruct s as [|q s1]; [discriminate H|]. destruct (q =? 34); [|discriminate H].
    destruct (json_chars None s1) as [[k s2]|] eqn:Hk; [|discriminate H].
    destruct (json_chars_carried s1 None k s2 Hk (no_surrogates_tail _ _ Hs) I) as [Hkc [Hs2 _]].
    assert (Hw := skip_white_surrogates s2 Hs2). destruct (skip_white s2) as [|p s3]; [discriminate H|]. destruct (p =? 58); [|discriminate H].
    apply no_surrogates_tail in Hw. apply skip_white_surrogates in Hw.
    destruct (json_value E n (skip_white s3)) as [[v x]|e] eqn:Hv; [|discriminate H]. cbn [bind fst snd] in H.
    destruct (IHv _ _ _ Hv Hw) as [Hsh Hx]. assert (Hwx := skip_white_surrogates x Hx). destruct (skip_white x) as [|d y]; [discriminate H|].
    assert (Hy := no_surrogates_tail _ _ Hwx).
    assert (Hacc' : entries_shown E (sset k v acc)).
    { destruct Hacc as [Hn Ha]. split; [apply sset_keys; exact Hn|]. intros k' u Hu. apply sset_entries in Hu.
      destruct Hu as [[-> ->]|Hu]; [split; [exists k; split; [reflexivity|exact Hkc]|exact Hsh]|apply (Ha k' u Hu)]. }
    destruct (d =? 125); [injection H as <- <-; split; assumption|]. destruct (d =? 44); [|discriminate H].
    apply (IHm _ _ _ _ H (skip_white_surrogates y Hy) Hacc').
Qed.

(** @prop C74 What [json.loads] reads from a text without surrogates is a document of JSON, so
    writing and reading it again changes nothing. *)
Lemma json_reread :
  forall E t v,
    no_surrogates t -> json_unserialize E t = Ok v -> floats_print E v ->
    document E v /\ exists u, json_serialize E v = Ok u /\ json_unserialize E u = Ok v.
Proof.
  intros E t v Ht H Hf.
  assert (Hd : document E v).
  { assert (Hu : (do x <- json_value E (S (2 * length t)) (skip_white t);
                          match skip_white (snd x) with [] => Ok (fst x) | _ => json_bad end) = Ok v).
    { unfold json_unserialize in H. destruct t as [|c t]; [exact H|].
      destruct c as [|p]; [exact H|]. do 16 (destruct p as [p|p|]; try exact H). }
    destruct (json_value E (S (2 * length t)) (skip_white t)) as [[w r]|e] eqn:Hv; [|discriminate Hu]. cbn [bind fst snd] in Hu.
    destruct (skip_white r); [|discriminate Hu]. injection Hu as <-.
    apply (proj1 (json_shown E _) _ _ _ Hv (skip_white_surrogates t Ht)). exact Hf. }
  split; [exact Hd|]. apply json_documents. exact Hd.
Qed.

(** @example
Definition text74 : str := $" { ""a"" : [1, -0, 25e-1, true] , ""b"": ""\ud83d\ude00\ud83d"" }".
Definition read74 : val :=
  VDict false [(VStr $"a", VList [VInt 1; VInt 0; VFloat (S754_finite false 5629499534213120 (-51)); VBool true]); (VStr $"b", VStr [128512; 55357])].
Definition env74' : env :=
  {| e_pre := e_pre env0; e_ext := e_ext env0; e_inst := e_inst env0; e_pattern := e_pattern env0; e_local := e_local env0;
     e_pad := true; e_udigit := e_udigit env0; e_uword := e_uword env0; e_ulower := e_ulower env0; e_import := e_import env0;
     e_identify := e_identify env0; e_undef := e_undef env0; e_str := fun v => $"2.5";
     e_impl := e_impl env0; e_schemas := e_schemas env0; e_compile := e_compile env0; e_repr := e_repr env0;
     e_surrogate := e_surrogate env0; e_identity := e_identity env0 |}.
Example C74_reread_example :
  no_surrogates text74 /\ json_unserialize env74' text74 = Ok read74 /\ floats_print env74' read74
  /\ json_serialize env74' read74 = Ok ($"{""a"": [1, 0, 2.5, true], ""b"": ""\ud83d\ude00\ud83d""}").
Proof.
  split; [|split; [vm_compute; reflexivity|split; [|vm_compute; reflexivity]]].
  - let t := eval vm_compute in text74 in change text74 with t. intros c Hin. cbn in Hin. repeat (destruct Hin as [<- | Hin]; [lia |]). destruct Hin.
  - unfold read74. apply fp_dict. cbn [In]. intros k v [H|[H|[]]]; injection H as _ <-; [|constructor; exact I].
    apply fp_list. cbn [In]. intros v [<-|[<-|[<-|[<-|[]]]]]; try (apply fp_other; exact I). apply fp_float. intros _. split; [|vm_compute; reflexivity].
    exists [], [50], [46; 53], []. split; [reflexivity|]. split; [left; reflexivity|]. split; [right; split; [digits|intros r; discriminate]|].
    split; [right; exists [53]; split; [reflexivity|digits]|]. split; [left; reflexivity|discriminate].
Qed.
@end *)
