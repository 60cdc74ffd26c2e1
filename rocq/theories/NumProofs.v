(** * Integers and decimals as text: proofs.
    (* @imports Spec Demo *) *)
From Coq Require Import Qpower ZifyBool ZifyN ZifyNat.
From Verif Require Import PyBaseFacts NumFacts Induct Spec Demo ProcessFacts ScalarProofs.
Open Scope Z_scope.
Ltac Zify.zify_post_hook ::= Z.div_mod_to_equations.

(** ** C03 *)

Lemma fold_place ds a :
  Z.of_N (fold_left (fun x d => (10 * x + d)%N) ds a)
  = Z.of_N a * 10 ^ Z.of_nat (length ds) + place_value ds.
Proof.
  revert a. induction ds as [|d ds IH]; intros a; cbn [fold_left length place_value].
  - rewrite Z.pow_0_r. lia.
  - rewrite IH. rewrite Nat2Z.inj_succ, Z.pow_succ_r by lia. rewrite N2Z.inj_add, N2Z.inj_mul.
    change (Z.of_N 10) with 10. ring.
Qed.

Lemma place_digits ds : Z.of_N (digits_val ds) = place_value ds.
Proof. unfold digits_val. rewrite fold_place. lia. Qed.

Lemma signed_body_parse sign ds :
  ds <> [] -> Forall dig ds -> sign = [] \/ sign = [43%N] \/ sign = [45%N] ->
  let body := sign ++ render ds in
  Forall (fun c => is_ascii_space c = false /\ is_space c = false /\ (c < 127)%N /\ c <> 95%N) body
  /\ take_sign body = (match sign with [45%N] => true | _ => false end, render ds).
Proof.
  intros Hn Hd Hs body.
  assert (Hr : Forall (fun c => is_ascii_space c = false /\ is_space c = false /\ (c < 127)%N /\ c <> 95%N)
                 (render ds)).
  { apply Forall_forall. intros c Hc. apply render_In in Hc; [|exact Hd].
    unfold is_ascii_space, is_space. lia. }
  split.
  - unfold body. destruct Hs as [->|[->| ->]]; cbn [app]; [exact Hr| |];
      (constructor; [|exact Hr]); unfold is_ascii_space, is_space; cbn; lia.
  - unfold body. destruct Hs as [->|[->| ->]]; cbn [app]; [|reflexivity|reflexivity].
    rewrite <- (app_nil_r (render ds)). apply take_sign_render; auto.
Qed.

Lemma parse_int_text ud s z : int_text s z -> parse_int ud s = Some z.
Proof.
  intros [a [sign [ds [b [-> [Ha [Hb [Hn [Hd Hz]]]]]]]]].
  assert (Hs : sign = [] \/ sign = [43%N] \/ sign = [45%N]).
  { destruct Hz as [[[->| ->] _]|[-> _]]; auto. }
  change (map (fun d => 48 + d)%N ds) with (render ds).
  destruct (signed_body_parse sign ds Hn Hd Hs) as [Hb1 Hb2].
  assert (Hsp : forall x, Forall (fun c => is_ascii_space c = true) x ->
                Forall (fun c => (c < 127)%N) x).
  { intros x. apply Forall_impl. intros c. unfold is_ascii_space. lia. }
  unfold parse_int. rewrite ascii_id.
  2:{ rewrite app_assoc, app_assoc. rewrite <- (app_assoc a).
      apply Forall_app. split; [apply Forall_app; split; [apply Hsp, Ha|]|apply Hsp, Hb].
      eapply Forall_impl; [|exact Hb1]. intros c Hc. apply Hc. }
  unfold parse_int_ascii.
  replace (a ++ sign ++ render ds ++ b) with (a ++ (sign ++ render ds) ++ b)
    by (rewrite <- !app_assoc; reflexivity).
  rewrite strip_app; auto.
  2:{ intros c r Hc. rewrite Hc in Hb1. inversion Hb1. tauto. }
  2:{ intros c r Hc. rewrite Hc in Hb1. apply Forall_app in Hb1. destruct Hb1 as [_ Hb1].
      inversion Hb1. tauto. }
  rewrite Hb2. rewrite ununder_none.
  2:{ intros Hc. apply render_In in Hc; [lia|exact Hd]. }
  rewrite take_digits_render' by exact Hd.
  destruct ds as [|d ds]; [contradiction|].
  unfold signed. rewrite place_digits. f_equal.
  destruct Hz as [[[->| ->] ->]|[-> ->]]; reflexivity.
Qed.

(** @prop C03 Unserializing a decimal rendering of an integer (blanks around, optional sign, any
    number of leading zeros) is the same as processing that integer natively. *)
Lemma integer_text_unserialized :
  forall E desc recon n p mn mx partial anc s z,
    plain p -> int_text s z ->
    process_gen E desc recon n (Fld p (KInteger mn mx)) partial Inbound true anc (VStr s)
    = process_gen E desc recon n (Fld p (KInteger mn mx)) partial Inbound false anc (VInt z).
Proof.
  intros E desc recon n p mn mx partial anc s z Hp Hs.
  rewrite process_inbound by (auto; discriminate).
  rewrite process_native by (auto; try discriminate; intros [_ [=]]).
  cbn [unserialize_value]. unfold to_int. rewrite (parse_int_text _ _ _ Hs).
  cbn [or_invalid bind]. unfold serial. cbn [andb].
  destruct (validate_value E (KInteger mn mx : kind) (path_of p (KInteger mn mx) anc) (VInt z));
    reflexivity.
Qed.

(** @prop C03 [str(z)] is a decimal rendering of [z]. *)
Lemma integer_str_is_text :
  forall z, int_text (Z_text z) z.
Proof.
  intros z. rewrite Z_text_sign.
  exists [], (if z <? 0 then $"-" else []), (digits (Z.abs_N z)), [].
  split; [rewrite app_nil_r; destruct (z <? 0); reflexivity|].
  split; [constructor|]. split; [constructor|].
  split; [apply digits_nonempty|]. split; [apply digits_dig|].
  assert (Hv : place_value (digits (Z.abs_N z)) = Z.abs z).
  { rewrite <- place_digits, digits_val_digits. lia. }
  rewrite Hv. destruct (Z.ltb_spec z 0); [right|left; split; auto]; try split; auto; lia.
Qed.

(** @prop C03 Round trip: an accepted integer is serialized as itself, and unserializing either it
    or its text gives it back. *)
Lemma integer_round_trip :
  forall E desc recon n p mn mx partial anc z r,
    plain p ->
    process_gen E desc recon n (Fld p (KInteger mn mx)) partial Outbound true anc (VInt z) = Ok r ->
    r = VInt z
    /\ process_gen E desc recon n (Fld p (KInteger mn mx)) partial Inbound true anc r = Ok (VInt z)
    /\ forall s, int_text s z ->
         process_gen E desc recon n (Fld p (KInteger mn mx)) partial Inbound true anc (VStr s)
         = Ok (VInt z).
Proof.
  intros E desc recon n p mn mx partial anc z r Hp H.
  assert (Hv : validate_value E (KInteger mn mx : kind) (path_of p (KInteger mn mx) anc) (VInt z)
               = Ok (VInt z) /\ r = VInt z).
  { rewrite process_native in H by (auto; try discriminate; intros [[=] _]).
    apply bind_Ok in H. destruct H as [a [H1 H2]]. cbn in H2. cbn [validate_value] in *.
    assert (Ha : a = VInt z).
    { apply (check_bounds_ok _ Z.le _ _ _ _ _ _ zle_lt) in H1. tauto. }
    subst a. split; [exact H1|congruence]. }
  destruct Hv as [Hv ->]. split; [reflexivity|].
  assert (Hin : process_gen E desc recon n (Fld p (KInteger mn mx)) partial Inbound true anc (VInt z)
                = Ok (VInt z)).
  { rewrite process_inbound by (auto; discriminate). exact Hv. }
  split; [exact Hin|].
  intros s Hs. rewrite (integer_text_unserialized E desc recon n p mn mx partial anc s z Hp Hs).
  rewrite process_native by (auto; try discriminate; intros [_ [=]]).
  rewrite Hv. reflexivity.
Qed.

(** @prop C03 Booleans are rejected in every phase. *)
Lemma integer_rejects_bool :
  forall E desc recon n p mn mx partial ph ser anc b,
    plain p ->
    process_gen E desc recon n (Fld p (KInteger mn mx)) partial ph ser anc (VBool b)
    = invalid_type (path_of p (KInteger mn mx) anc).
Proof.
  intros E desc recon n p mn mx partial ph ser anc b Hp.
  rewrite process_basic by reflexivity. rewrite scalar_plain by (auto; discriminate).
  destruct ph, ser; reflexivity.
Qed.

(** @example
Example C03_example :
  int_text $" -007
" (-7)
  /\ run0 (Fld p0 (KInteger (Some (-7)) None)) Inbound true (VStr $" -007
") = Ok (VInt (-7))
  /\ run0 (Fld p0 (KInteger (Some 0) None)) Outbound true (VInt 12) = Ok (VInt 12)
  /\ Z_text (-120) = $"-120".
Proof.
  split; [|repeat split; reflexivity].
  exists $" ", $"-", [0%N; 0%N; 7%N], [10%N].
  split; [reflexivity|]. split; [repeat constructor|]. split; [repeat constructor|].
  split; [discriminate|]. split; [repeat constructor|]. right. split; reflexivity.
Qed.
@end *)

(** ** C05 *)

Lemma pow10_Qpower e : (pow10 e == Qpower (10 # 1) e)%Q.
Proof.
  assert (Hp : forall q, (inject_Z (10 ^ Zpos q) == Qpower_positive (10 # 1) q)%Q).
  { intros q. change (Qpower_positive (10 # 1) q) with (Qpower (inject_Z 10) (Zpos q)).
    apply Zpower_Qpower. lia. }
  unfold pow10, Qpower. destruct e as [|q|q]; [reflexivity|apply Hp|].
  rewrite Hp. reflexivity.
Qed.

Lemma render_app a b : render (a ++ b) = render a ++ render b.
Proof. apply map_app. Qed.

Lemma render_zeros n : repeat 48%N n = render (repeat 0%N n).
Proof. induction n as [|n IH]; [reflexivity|]. cbn. rewrite IH. reflexivity. Qed.

Lemma dig_zeros n : Forall dig (repeat 0%N n).
Proof. apply Forall_forall. intros x Hx. apply repeat_spec in Hx. subst. unfold dig. lia. Qed.

Lemma Forall_firstn {A} (P : A -> Prop) n l : Forall P l -> Forall P (firstn n l).
Proof. intros H. rewrite <- (firstn_skipn n l) in H. apply Forall_app in H. tauto. Qed.
Lemma Forall_skipn {A} (P : A -> Prop) n l : Forall P l -> Forall P (skipn n l).
Proof. intros H. rewrite <- (firstn_skipn n l) in H. apply Forall_app in H. tauto. Qed.

(** Shape of the text of a finite decimal. *)
Lemma dec_text_fin neg c e :
  exists a fp ex,
    dec_text (DFin neg c e)
    = (if neg then [45%N] else []) ++ render a
      ++ (match fp with Some b => 46%N :: render b | None => [] end)
      ++ (match ex with Some z => 69%N :: plus_text z | None => [] end)
    /\ a <> [] /\ Forall dig a /\ (forall b, fp = Some b -> Forall dig b)
    /\ digits_val (a ++ match fp with Some b => b | None => [] end) = c
    /\ (match ex with Some z => z | None => 0 end
        - zlen (match fp with Some b => b | None => [] end)) = e.
Proof.
  unfold dec_text, N_text. set (ds := digits c).
  assert (Hd : Forall dig ds) by apply digits_dig.
  assert (Hn : ds <> []) by apply digits_nonempty.
  assert (Hv : digits_val ds = c) by apply digits_val_digits.
  assert (Hl : zlen (render ds) = zlen ds) by (unfold zlen, render; rewrite map_length; reflexivity).
  rewrite Hl. clearbody ds.
  assert (Hpos : 0 < zlen ds) by (destruct ds; [contradiction|unfold zlen; cbn [length]; lia]).
  remember (zlen ds) as n eqn:En.
  remember (e + n) as left eqn:Eleft.
  remember (if (e <=? 0) && (-6 <? left) then left else 1) as dot eqn:Edot.
  exists (if dot <=? 0 then [0%N] else if n <=? dot then ds ++ repeat 0%N (Z.to_nat (dot - n))
          else firstn (Z.to_nat dot) ds),
         (if dot <=? 0 then Some (repeat 0%N (Z.to_nat (- dot)) ++ ds) else if n <=? dot then None
          else Some (skipn (Z.to_nat dot) ds)),
         (if left =? dot then None else Some (left - dot)).
  destruct (Z.leb_spec dot 0) as [H0|H0]; [|destruct (Z.leb_spec n dot) as [H1|H1]].
  - assert (left = dot) by (destruct ((e <=? 0) && (-6 <? left)); lia).
    destruct (Z.eqb_spec left dot); [|contradiction]. cbn [fst snd].
    split; [rewrite render_zeros, render_app; reflexivity|].
    split; [discriminate|]. split; [repeat constructor|].
    split; [intros b [= <-]; apply Forall_app; split; [apply dig_zeros|exact Hd]|].
    split; [change ([0%N] ++ repeat 0%N (Z.to_nat (- dot)) ++ ds)
              with (repeat 0%N (S (Z.to_nat (- dot))) ++ ds); rewrite digits_val_zeros; exact Hv|].
    unfold zlen in *. rewrite app_length, repeat_length. lia.
  - assert (Hdot : dot = n).
    { destruct (Z.leb_spec e 0); destruct (Z.ltb_spec (-6) left); cbn [andb] in Edot; lia. }
    rewrite Hdot, Z.sub_diag. cbn [Z.to_nat repeat fst snd]. rewrite !app_nil_r.
    split; [|split; [exact Hn|split; [exact Hd|split; [intros b [=]|split; [exact Hv|]]]]].
    + destruct (left =? n); reflexivity.
    + cbn. destruct (Z.eqb_spec left n); lia.
  - cbn [fst snd].
    split.
    { unfold render. rewrite !map_map || idtac. rewrite firstn_map, skipn_map.
      destruct (left =? dot); reflexivity. }
    split.
    { intros Hf. apply (f_equal (@length N)) in Hf. rewrite firstn_length in Hf. unfold zlen in *.
      cbn [length] in Hf. lia. }
    split; [apply Forall_firstn, Hd|].
    split; [intros b [= <-]; apply Forall_skipn, Hd|].
    split; [rewrite firstn_skipn; exact Hv|].
    unfold zlen in *. rewrite skipn_length. destruct (Z.eqb_spec left dot); lia.
Qed.

Lemma low_digit d s : dig d ->
  let low := map lower_ascii ((48 + d)%N :: s) in
  str_eqb low $"inf" = false /\ str_eqb low $"infinity" = false
  /\ forall (A : Type) (x y : str -> A) z,
      match low with
      | 110%N :: 97%N :: 110%N :: q => x q
      | 115%N :: 110%N :: 97%N :: 110%N :: q => y q
      | _ => z
      end = z.
Proof.
  unfold dig. intros Hd. cbn [map].
  assert (Hc : lower_ascii (48 + d) = (48 + d)%N) by (unfold lower_ascii; destruct (N.leb_spec 65 (48 + d)); [lia|reflexivity]).
  rewrite Hc.
  assert (H : (d = 0 \/ d = 1 \/ d = 2 \/ d = 3 \/ d = 4 \/ d = 5 \/ d = 6 \/ d = 7 \/ d = 8 \/ d = 9)%N) by lia.
  destruct H as [->|[->|[->|[->|[->|[->|[->|[->|[->| ->]]]]]]]]]; repeat split; reflexivity.
Qed.

Lemma parse_dec_ascii_text d : parse_dec_ascii (dec_text d) = Some d.
Proof.
  destruct d as [neg c e|neg|neg sg q].
  - destruct (dec_text_fin neg c e) as [a [fp [ex [-> [Hn [Hd [Hfp [Hv He]]]]]]]].
    set (rest := (match fp with Some b => 46%N :: render b | None => [] end)
                 ++ (match ex with Some z => 69%N :: plus_text z | None => [] end)).
    assert (Hs : take_sign ((if neg then [45%N] else []) ++ render a ++ rest) = (neg, render a ++ rest)).
    { destruct neg; [reflexivity|]. apply take_sign_render; auto. }
    unfold parse_dec_ascii. rewrite Hs.
    assert (Hp : parse_finite (render a ++ rest) = Some (a ++ match fp with Some b => b | None => [] end, e)).
    { unfold rest. rewrite (parse_finite_render a fp ex Hn Hd Hfp). rewrite He. reflexivity. }
    rewrite Hp. rewrite Hv.
    destruct Hd as [|x a Hx Ha]; [contradiction|].
    destruct (low_digit x (render a ++ rest) Hx) as [H1 [H2 H3]].
    cbv zeta in H1, H2, H3. change (render (x :: a) ++ rest) with ((48 + x)%N :: render a ++ rest).
    rewrite H1, H2. cbn [orb]. apply H3.
  - destruct neg; reflexivity.
  - assert (Hq : forall m, take_digits (if (m =? 0)%N then [] else N_text m)
                      = (if (m =? 0)%N then [] else digits m, [])).
    { intros m. destruct (m =? 0)%N; [reflexivity|]. apply take_digits_render', digits_dig. }
    assert (Hlow : forall m, map lower_ascii (if (m =? 0)%N then [] else N_text m)
                      = (if (m =? 0)%N then [] else N_text m)).
    { intros m. destruct (m =? 0)%N; [reflexivity|]. unfold N_text.
      rewrite <- (map_id (render (digits m))) at 2. apply map_ext_in.
      intros c Hc. apply render_In in Hc; [|apply digits_dig]. unfold lower_ascii.
      destruct (N.leb_spec 65 c); [lia|reflexivity]. }
    assert (Hval : digits_val (if (q =? 0)%N then [] else digits q) = q).
    { destruct (N.eqb_spec q 0) as [->|]; [reflexivity|apply digits_val_digits]. }
    cbn [dec_text]. set (pl := if (q =? 0)%N then [] else N_text q) in *.
    assert (Hr : forall t, take_sign ((if neg then [45%N] else []) ++ (78%N :: t)) = (neg, 78%N :: t)
                  /\ take_sign ((if neg then [45%N] else []) ++ (115%N :: t)) = (neg, 115%N :: t)).
    { intros t. destruct neg; split; reflexivity. }
    assert (Hq' : take_digits pl = (if (q =? 0)%N then [] else digits q, [])) by exact (Hq q).
    assert (Hl' : map lower_ascii pl = pl) by exact (Hlow q).
    clearbody pl.
    unfold parse_dec_ascii. destruct sg.
    + change ($"sNaN" ++ pl) with (115%N :: 78%N :: 97%N :: 78%N :: pl).
      destruct (Hr (78%N :: 97%N :: 78%N :: pl)) as [_ ->].
      cbn [map]. rewrite Hl'. cbn -[take_digits digits_val N.eqb N_text].
      rewrite Hq', Hval. reflexivity.
    + change ($"NaN" ++ pl) with (78%N :: 97%N :: 78%N :: pl).
      destruct (Hr (97%N :: 78%N :: pl)) as [-> _].
      cbn [map]. rewrite Hl'. cbn -[take_digits digits_val N.eqb N_text].
      rewrite Hq', Hval. reflexivity.
Qed.

Definition safe_char (c : N) : Prop := is_space c = false /\ c <> 95%N /\ (c < 127)%N.

Lemma safe_render ds : Forall dig ds -> Forall safe_char (render ds).
Proof.
  intros Hd. apply Forall_forall. intros c Hc. apply render_In in Hc; [|exact Hd].
  unfold safe_char, is_space. lia.
Qed.

Lemma safe_lit s : forallb (fun c => negb (is_space c) && negb (c =? 95)%N && (c <? 127)%N) s = true ->
  Forall safe_char s.
Proof.
  intros H. apply Forall_forall. intros c Hc. apply forallb_forall with (x := c) in H; [|exact Hc].
  unfold safe_char. destruct (is_space c); cbn in H; [discriminate|]. lia.
Qed.

Lemma safe_dec_text d : Forall safe_char (dec_text d).
Proof.
  assert (Hneg : forall neg : bool, Forall safe_char (if neg then [45%N] else [])).
  { intros []; apply safe_lit; reflexivity. }
  destruct d as [neg c e|neg|neg sg q].
  - destruct (dec_text_fin neg c e) as [a [fp [ex [-> [Hn [Hd [Hfp _]]]]]]].
    repeat (apply Forall_app; split); auto.
    + apply safe_render, Hd.
    + destruct fp as [b|]; [|constructor]. constructor; [cbv; repeat split; discriminate|].
      apply safe_render. auto.
    + destruct ex as [z|]; [|constructor]. constructor; [cbv; repeat split; discriminate|].
      unfold plus_text. rewrite Z_text_sign.
      destruct (z <? 0); cbn [app]; (constructor; [cbv; repeat split; discriminate|]);
        apply safe_render, digits_dig.
  - apply Forall_app; split; auto. apply safe_lit. reflexivity.
  - cbn [dec_text]. repeat (apply Forall_app; split); auto.
    + destruct sg; apply safe_lit; reflexivity.
    + destruct (q =? 0)%N; [constructor|]. apply safe_render, digits_dig.
Qed.

Lemma filter_id {A} (f : A -> bool) l : Forall (fun x => f x = true) l -> filter f l = l.
Proof. induction 1 as [|x l Hx Hl IH]; cbn; [reflexivity|]. rewrite Hx, IH. reflexivity. Qed.

Lemma parse_dec_text ud d : parse_dec ud (dec_text d) = Some d.
Proof.
  assert (H := safe_dec_text d). unfold parse_dec.
  rewrite strip_none.
  2:{ eapply Forall_impl; [|exact H]. intros c Hc. apply Hc. }
  rewrite filter_id.
  2:{ eapply Forall_impl; [|exact H]. intros c [_ [Hc _]]. cbn. destruct (N.eqb_spec c 95); [contradiction|reflexivity]. }
  replace (map _ (dec_text d)) with (dec_text d); [apply parse_dec_ascii_text|].
  rewrite <- (map_id (dec_text d)) at 1. apply map_ext_in. intros c Hc.
  rewrite Forall_forall in H. destruct (H c Hc) as [_ [_ Hl]].
  destruct (N.ltb_spec c 127); [reflexivity|lia].
Qed.

(** @prop C05 Unserializing [str(d)] is the same as processing [d] natively, for every decimal:
    sign, coefficient, exponent, infinities and NaNs included. *)
Lemma decimal_text_unserialized :
  forall E desc recon n p mn mx partial anc d,
    plain p ->
    process_gen E desc recon n (Fld p (KDecimal mn mx)) partial Inbound true anc (VStr (dec_text d))
    = process_gen E desc recon n (Fld p (KDecimal mn mx)) partial Inbound false anc (VDec d).
Proof.
  intros E desc recon n p mn mx partial anc d Hp.
  rewrite process_inbound by (auto; discriminate).
  rewrite process_native by (auto; try discriminate; intros [_ [=]]).
  cbn [unserialize_value]. unfold to_dec. rewrite parse_dec_text.
  cbn [or_invalid bind]. unfold serial. cbn [andb].
  destruct (validate_value E (KDecimal mn mx : kind) (path_of p (KDecimal mn mx) anc) (VDec d));
    reflexivity.
Qed.

Lemma check_bounds_r_ok {A} (lt : A -> A -> res bool) anc mn mx x r r' :
  check_bounds_r lt anc mn mx x r = Ok r' ->
  r' = r /\ (forall m, mn = Some m -> lt x m = Ok false) /\ (forall m, mx = Some m -> lt m x = Ok false).
Proof.
  unfold check_bounds_r. intros H. apply bind_Ok in H. destruct H as [b [H1 H2]].
  destruct b; [discriminate|]. apply bind_Ok in H2. destruct H2 as [a [H2 H3]].
  destruct a; [discriminate|]. injection H3 as <-. split; [reflexivity|].
  split; intros m ->; assumption.
Qed.

(** @prop C05 Round trip through the field: what an accepted decimal is serialized to is
    unserialized to exactly that decimal. *)
Lemma decimal_round_trip :
  forall E desc recon n p mn mx partial anc d s,
    plain p ->
    process_gen E desc recon n (Fld p (KDecimal mn mx)) partial Outbound true anc (VDec d) = Ok s ->
    s = VStr (dec_text d)
    /\ process_gen E desc recon n (Fld p (KDecimal mn mx)) partial Inbound true anc s = Ok (VDec d).
Proof.
  intros E desc recon n p mn mx partial anc d s Hp H.
  rewrite process_native in H by (auto; try discriminate; intros [[=] _]).
  apply bind_Ok in H. destruct H as [a [H1 H2]]. cbn [validate_value] in H1.
  assert (Ha := H1). apply check_bounds_r_ok in Ha. destruct Ha as [-> _].
  cbn in H2. injection H2 as <-. split; [reflexivity|].
  rewrite decimal_text_unserialized by exact Hp.
  rewrite process_native by (auto; try discriminate; intros [_ [=]]).
  cbn [validate_value]. rewrite H1. reflexivity.
Qed.

Lemma num_of_dec_Q d q : num_of_dec d = NQ q -> (q == dec_Q d)%Q.
Proof.
  destruct d; cbn; try discriminate; intros [= <-].
  rewrite pow10_Qpower. unfold signed. destruct neg; reflexivity.
Qed.

Lemma dec_lt_spec a b :
  dec_is_nan a = false -> dec_is_nan b = false ->
  (dec_lt a b = Ok false /\ decimal_le b a) \/ (dec_lt a b = Ok true /\ ~ decimal_le b a).
Proof.
  intros Ha Hb.
  assert (Hq : forall x y, num_of_dec a = NQ x -> num_of_dec b = NQ y ->
               (Qlt_bool x y = false <-> (dec_Q b <= dec_Q a)%Q)).
  { intros x y Hx Hy. apply num_of_dec_Q in Hx. apply num_of_dec_Q in Hy.
    unfold Qlt_bool. rewrite negb_false_iff, Qle_bool_iff, Hx, Hy. reflexivity. }
  destruct a as [na ca ea|na|], b as [nb cb eb|nb|]; try discriminate; unfold dec_lt.
  - cbn [num_ltb num_of_dec] in *. specialize (Hq _ _ eq_refl eq_refl).
    destruct (Qlt_bool _ _); [right|left]; split; auto; cbn [decimal_le].
    + intros H. apply Hq in H. discriminate.
    + apply Hq. reflexivity.
  - destruct nb; cbn; auto.
  - destruct na; cbn; auto.
  - destruct na, nb; cbn; auto.
Qed.

(** @prop C05 Bounds on native values, without NaN: accepted exactly within the bounds, unchanged;
    otherwise [minimum], [maximum], or an InvalidTypeError for anything but decimals. *)
Lemma decimal_native_exact :
  forall E desc recon n p mn mx partial ph anc,
    plain p -> (forall m, mn = Some m \/ mx = Some m -> dec_is_nan m = false) ->
    let out v := process_gen E desc recon n (Fld p (KDecimal mn mx)) partial ph false anc v in
    let path := path_of p (KDecimal mn mx) anc in
    (forall d, dec_is_nan d = false ->
       (forall r, out (VDec d) = Ok r <-> r = VDec d /\ at_least decimal_le mn d /\ at_most decimal_le mx d)
       /\ (~ at_least decimal_le mn d -> out (VDec d) = fails path $"minimum")
       /\ (at_least decimal_le mn d -> ~ at_most decimal_le mx d -> out (VDec d) = fails path $"maximum"))
    /\ (forall v, v <> VNone -> (forall d, v <> VDec d) -> out v = invalid_type path).
Proof.
  intros E desc recon n p mn mx partial ph anc Hp Hnan out path.
  assert (Hout : forall v, v <> VNone -> out v = validate_value E (KDecimal mn mx : kind) path v).
  { intros v Hv. unfold out. rewrite process_native by (auto; intros [_ [=]]).
    unfold serial. cbn [andb]. fold path.
    destruct (validate_value E (KDecimal mn mx : kind) path v); reflexivity. }
  split.
  - intros d Hd. rewrite (Hout (VDec d)) by discriminate. cbn [validate_value].
    unfold check_bounds_r.
    assert (Hmn : (at_least decimal_le mn d
                   /\ match mn with Some m => dec_lt d m | None => Ok false end = Ok false)
                  \/ (~ at_least decimal_le mn d
                      /\ match mn with Some m => dec_lt d m | None => Ok false end = Ok true)).
    { unfold at_least. destruct mn as [m|]; [|left; split; [intros m [=]|reflexivity]].
      destruct (dec_lt_spec d m Hd (Hnan m (or_introl eq_refl))) as [[H1 H2]|[H1 H2]]; [left|right];
        split; auto.
      intros m' [= <-]. exact H2. }
    assert (Hmx : (at_most decimal_le mx d
                   /\ match mx with Some m => dec_lt m d | None => Ok false end = Ok false)
                  \/ (~ at_most decimal_le mx d
                      /\ match mx with Some m => dec_lt m d | None => Ok false end = Ok true)).
    { unfold at_most. destruct mx as [m|]; [|left; split; [intros m [=]|reflexivity]].
      destruct (dec_lt_spec m d (Hnan m (or_intror eq_refl)) Hd) as [[H1 H2]|[H1 H2]]; [left|right];
        split; auto.
      intros m' [= <-]. exact H2. }
    destruct Hmn as [[H1 ->]|[H1 ->]]; cbn [bind].
    + destruct Hmx as [[H2 ->]|[H2 ->]]; cbn [bind].
      * split; [|split; intros; contradiction].
        intros r. split; [intros [= <-]; auto | intros [-> _]; reflexivity].
      * split; [|split; [intros; contradiction|reflexivity]].
        intros r. split; [discriminate | intros [_ [_ H]]; contradiction].
    + split; [|split; [reflexivity | intros; contradiction]].
      intros r. split; [discriminate | intros [_ [H _]]; contradiction].
  - intros v Hv Hd. rewrite Hout by exact Hv.
    destruct v; try reflexivity. exfalso. eapply Hd. reflexivity.
Qed.

(** @prop C05 A NaN compared with a bound escapes as InvalidOperation; without bounds it is
    accepted. *)
Lemma decimal_nan :
  forall E desc recon n p mn mx partial ph anc d,
    plain p -> dec_is_nan d = true ->
    process_gen E desc recon n (Fld p (KDecimal mn mx)) partial ph false anc (VDec d)
    = match mn, mx with
      | None, None => Ok (VDec d)
      | _, _ => Raise (XPy InvalidOperation)
      end.
Proof.
  intros E desc recon n p mn mx partial ph anc d Hp Hd.
  rewrite process_native by (auto; try discriminate; intros [_ [=]]).
  cbn [validate_value]. destruct d; try discriminate.
  destruct mn as [m|]; [reflexivity|].
  destruct mx as [m|]; [|reflexivity]. cbn. destruct m; reflexivity.
Qed.

(** @example
Example C05_example :
  let f := Fld p0 (KDecimal (Some (DFin false 5 (-1))) (Some (DFin false 2 3))) in
  run0 f Outbound true (VDec (DFin false 1230 (-2))) = Ok (VStr $"12.30")
  /\ run0 f Inbound true (VStr $"12.30") = Ok (VDec (DFin false 1230 (-2)))
  /\ run0 f Inbound true (VStr $"2.0E+3") = Ok (VDec (DFin false 20 2))
  /\ run0 f Inbound true (VStr $"0.49") = fails [$"(decimal)"] $"minimum"
  /\ run0 f Inbound true (VStr $"NaN") = Raise (XPy InvalidOperation)
  /\ dec_text (DFin true 7 (-9)) = $"-7E-9".
Proof. repeat split; reflexivity. Qed.
@end *)
