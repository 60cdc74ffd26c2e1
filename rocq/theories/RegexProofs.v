(** * Token, UUID and Email (C15 to C17). *)
(* @imports Spec Demo RegexSpec *)
From Coq Require Import ZifyBool ZifyN ZifyNat.
From Verif Require Import PyBaseFacts NumFacts ProcessFacts Spec Demo ScalarProofs RegexSpec.
Open Scope N_scope.

(** ** Languages *)

Inductive star (P : str -> Prop) : str -> Prop :=
| star_nil : star P []
| star_app : forall a b, P a -> star P b -> star P (a ++ b).

Definition dot (P Q : str -> Prop) (s : str) : Prop := exists a b, s = a ++ b /\ P a /\ Q b.

Fixpoint lang (r : re) : str -> Prop :=
  match r with
  | RNone => fun _ => False
  | REps => fun s => s = []
  | RSet p => fun s => exists c, s = [c] /\ p c = true
  | RCat a b => dot (lang a) (lang b)
  | RAlt a b => fun s => lang a s \/ lang b s
  | RStar a => star (lang a)
  end.

Lemma star_concat P s : star P s <-> exists l, s = concat l /\ Forall P l.
Proof.
  split.
  - intros H. induction H as [|a b Ha Hb [l [-> Hl]]]; [exists []; split; [reflexivity|constructor]|].
    exists (a :: l). split; [reflexivity|constructor; assumption].
  - intros [l [-> Hl]]. induction Hl; cbn; [constructor|constructor; assumption].
Qed.

Lemma star_cons P c s : star P (c :: s) <-> exists a b, s = a ++ b /\ P (c :: a) /\ star P b.
Proof.
  split.
  - intros H. remember (c :: s) as cs eqn:Hcs. revert c s Hcs.
    induction H as [|a b Ha Hb IH]; intros c s Hcs; [discriminate|].
    destruct a as [|x a]; [apply IH, Hcs|]. cbn in Hcs. injection Hcs as -> <-. eauto 8.
  - intros [a [b [-> [Ha Hb]]]]. change (c :: a ++ b) with ((c :: a) ++ b). constructor; assumption.
Qed.

Lemma nullable_lang r : nullable r = true <-> lang r [].
Proof.
  induction r as [| |p|a IHa b IHb|a IHa b IHb|a IHa]; cbn.
  - split; [discriminate|contradiction].
  - tauto.
  - split; [discriminate|]. intros [c [H _]]. discriminate.
  - rewrite andb_true_iff, IHa, IHb. unfold dot. split.
    + intros [H1 H2]. exists [], []. auto.
    + intros [x [y [H [H1 H2]]]]. symmetry in H. apply app_eq_nil in H. destruct H as [-> ->]. auto.
  - rewrite orb_true_iff, IHa, IHb. reflexivity.
  - split; [constructor|reflexivity].
Qed.

Lemma cat_lang a b s : lang (cat a b) s <-> dot (lang a) (lang b) s.
Proof.
  assert (H1 : forall Q, dot (fun _ => False) Q s <-> False) by (intros Q; split; [intros [x [y [_ [[] _]]]]|intros []]).
  assert (H2 : forall Q, dot Q (fun _ => False) s <-> False) by (intros Q; split; [intros [x [y [_ [_ []]]]]|intros []]).
  assert (H3 : forall Q, dot (fun u => u = []) Q s <-> Q s).
  { intros Q. split; [intros [x [y [-> [-> Hy]]]]; exact Hy|]. intros H. exists [], s. auto. }
  assert (H4 : forall Q, dot Q (fun u => u = []) s <-> Q s).
  { intros Q. split; [intros [x [y [-> [Hx ->]]]]; rewrite app_nil_r; exact Hx|]. intros H. exists s, []. rewrite app_nil_r. auto. }
  destruct a, b; cbn [cat lang]; rewrite ?H1, ?H2, ?H3, ?H4; try reflexivity.
Qed.

Lemma alt_lang a b s : lang (alt a b) s <-> lang a s \/ lang b s.
Proof. destruct a, b; cbn [alt lang]; tauto. Qed.

Lemma deriv_lang c r : forall s, lang (deriv c r) s <-> lang r (c :: s).
Proof.
  induction r as [| |p|a IHa b IHb|a IHa b IHb|a IHa]; intros s; cbn [deriv].
  - reflexivity.
  - cbn. split; [contradiction|discriminate].
  - cbn. destruct (p c) eqn:Hp; cbn.
    + split; [intros ->; eauto|]. intros [c' [[= _ ->] _]]. reflexivity.
    + split; [contradiction|]. intros [c' [[= -> _] H]]. congruence.
  - assert (Hcat : lang (cat (deriv c a) b) s <-> exists x y, s = x ++ y /\ lang a (c :: x) /\ lang b y).
    { rewrite cat_lang. unfold dot. split; intros [x [y [H1 [H2 H3]]]]; exists x, y; rewrite ?IHa in *; auto. }
    assert (Hall : lang (RCat a b) (c :: s) <->
              (exists x y, s = x ++ y /\ lang a (c :: x) /\ lang b y) \/ (lang a [] /\ lang b (c :: s))).
    { cbn [lang]. unfold dot. split.
      - intros [[|x0 x] [y [H1 [H2 H3]]]].
        + cbn in H1. subst y. auto.
        + cbn in H1. injection H1 as <- ->. left. exists x, y. auto.
      - intros [[x [y [-> [H1 H2]]]]|[H1 H2]].
        + exists (c :: x), y. auto.
        + exists [], (c :: s). auto. }
    rewrite Hall. destruct (nullable a) eqn:Hn.
    + rewrite alt_lang, Hcat, IHb. apply nullable_lang in Hn. tauto.
    + rewrite Hcat. split; [auto|]. intros [H|[H _]]; [exact H|]. apply nullable_lang in H. congruence.
  - rewrite alt_lang, IHa, IHb. reflexivity.
  - rewrite cat_lang. cbn [lang]. rewrite star_cons. unfold dot.
    split; intros [x [y [H1 [H2 H3]]]]; exists x, y; rewrite ?IHa in *; auto.
Qed.

Lemma rmatch_lang r s : rmatch r s = true <-> lang r s.
Proof.
  revert r. induction s as [|c s IH]; intros r; cbn [rmatch]; [apply nullable_lang|]. rewrite IH. apply deriv_lang.
Qed.

Lemma dollar_lang r s : rmatch_dollar r s = true <-> opt_newline (lang r) s.
Proof.
  unfold rmatch_dollar, opt_newline. rewrite orb_true_iff, rmatch_lang.
  assert (H : match rev s with 10 :: t => rmatch r (rev t) | _ => false end = true
              <-> exists t, s = t ++ [10] /\ lang r t); [|rewrite H; reflexivity].
  split.
  - intros H. destruct (rev s) as [|c t] eqn:Hr; [discriminate|].
    assert (Hs : s = rev t ++ [c]) by (rewrite <- (rev_involutive s), Hr; reflexivity).
    destruct (N.eq_dec c 10) as [-> |Hc].
    + apply rmatch_lang in H. eauto.
    + exfalso. destruct c as [|[[[[]|[]|]|[[]|[]|]|]|[[[]|[]|]|[[]|[]|]|]|]]; try discriminate; congruence.
  - intros [t [-> H]]. rewrite rev_app_distr. cbn. rewrite rev_involutive. apply rmatch_lang, H.
Qed.

Lemma opt_newline_iff P Q s : (forall t, P t <-> Q t) -> opt_newline P s <-> opt_newline Q s.
Proof.
  intros H. unfold opt_newline. rewrite H.
  split; (intros [|[t [Ht H']]]; [auto|right; exists t; split; [exact Ht|apply H; exact H']]).
Qed.

Lemma star_set p s : star (lang (RSet p)) s <-> Forall (fun c => p c = true) s.
Proof.
  split.
  - intros H. induction H as [|a b [c [-> Hc]] Hb IH]; [constructor|]. constructor; assumption.
  - intros H. induction H as [|c s Hc Hs IH]; [constructor|]. change (c :: s) with ([c] ++ s). constructor; [|exact IH].
    exists c. auto.
Qed.

Lemma rchar_lang c s : lang (rchar c) s <-> s = [c].
Proof.
  cbn. split; [intros [x [-> H]]; f_equal; lia|]. intros ->. exists c. split; [reflexivity|lia].
Qed.

Lemma rplus_set p s : lang (rplus (RSet p)) s <-> s <> [] /\ Forall (fun c => p c = true) s.
Proof.
  unfold rplus. cbn [lang]. unfold dot. split.
  - intros [a [b [-> [[c [-> Hc]] Hb]]]]. apply star_set in Hb. split; [discriminate|]. constructor; assumption.
  - intros [Hn H]. destruct H as [|c s Hc Hs]; [contradiction|]. exists [c], s. split; [reflexivity|].
    split; [exists c; auto|]. apply star_set, Hs.
Qed.

(** Repetition of a separator followed by an item. *)
Lemma star_sep c (A : re) (P : str -> Prop) s : (forall t, lang A t <-> P t) ->
  star (lang (RCat (rchar c) A)) s <-> exists l, Forall P l /\ s = flat_map (fun y => c :: y) l.
Proof.
  intros HA. rewrite star_concat. split.
  - intros [l [-> Hl]]. induction Hl as [|x l Hx Hl IH]; [exists []; auto|].
    destruct IH as [m [Hm IH]]. destruct Hx as [u [v [-> [Hu Hv]]]]. apply rchar_lang in Hu. subst u. apply HA in Hv.
    exists (v :: m). split; [constructor; assumption|]. cbn. rewrite IH. reflexivity.
  - intros [l [Hl ->]]. exists (map (fun y => c :: y) l). split; [apply flat_map_concat_map|].
    induction Hl as [|x l Hx Hl IH]; cbn [map]; constructor; [|exact IH].
    exists [c], x. split; [reflexivity|]. split; [apply rchar_lang; reflexivity|apply HA, Hx].
Qed.

Lemma joined_lang c (A : re) (P : str -> Prop) s : (forall t, lang A t <-> P t) ->
  lang (RCat A (RStar (RCat (rchar c) A))) s <-> exists l, Forall P l /\ joined c l s.
Proof.
  intros HA. cbn [lang]. unfold dot, joined. split.
  - intros [a [b [-> [Ha Hb]]]]. apply HA in Ha. apply (star_sep c A P) in Hb; [|exact HA]. destruct Hb as [l [Hl ->]].
    exists (a :: l). split; [constructor; assumption|]. exists a, l. auto.
  - intros [l [Hl [x [rest [-> ->]]]]]. inversion Hl; subst. exists x, (flat_map (fun y => c :: y) rest).
    split; [reflexivity|]. split; [apply HA; assumption|]. apply (star_sep c A P); [exact HA|]. eauto.
Qed.

(** ** C15 *)

Lemma word_char_spec E c : word_char (e_uword E) c = true <-> is_word E c.
Proof.
  unfold word_char, is_word, in_rng. destruct (N.ltb_spec c 128).
  - split; [lia|]. intros H'. assert (~ (128 <= c /\ e_uword E c = true)) by lia. lia.
  - split; [intros H'; do 4 right; auto|]. intros H'. destruct H' as [H'|[H'|[H'|[H'|[_ H']]]]]; [lia..|exact H'].
Qed.

Lemma seg_char_spec E c : seg_char (e_uword E) c = true <-> is_word E c \/ In c $"-+.".
Proof.
  unfold seg_char. rewrite !orb_true_iff, word_char_spec. rewrite !N.eqb_eq.
  change ($"-+.") with [45; 43; 46]. cbn [In]. intuition auto.
Qed.

Lemma segment_lang E s : lang (token_segment (e_uword E)) s <-> segment E s.
Proof.
  unfold token_segment, ropt. cbn [lang]. unfold dot, segment. split.
  - intros [a [b [-> [[c [-> Hc]] [[x [y [-> [Hx [d [-> Hd]]]]]]| -> ]]]]].
    + apply star_set in Hx. apply word_char_spec in Hc. apply word_char_spec in Hd. split; [|split].
      * apply Forall_app. split; [constructor; [auto|constructor]|]. apply Forall_app. split; [|constructor; [auto|constructor]].
        eapply Forall_impl; [|exact Hx]. intros z. apply seg_char_spec.
      * exists c, (x ++ [d]). auto.
      * exists d, (c :: x). auto.
    + apply word_char_spec in Hc. split; [constructor; [auto|constructor]|]. split; [exists c, []; auto|exists c, []; auto].
  - intros [Hall [[c [r [-> Hc]]] [d [r' [Hr Hd]]]]]. exists [c], r. split; [reflexivity|].
    split; [exists c; split; [reflexivity|apply word_char_spec, Hc]|].
    destruct r' as [|c' r'].
    + cbn in Hr. injection Hr as -> ->. right. reflexivity.
    + cbn in Hr. injection Hr as -> ->. left. exists r', [d]. split; [reflexivity|].
      split; [|exists d; split; [reflexivity|apply word_char_spec, Hd]].
      apply star_set. inversion Hall as [|? ? _ H]; subst. apply Forall_app in H. eapply Forall_impl; [|apply H].
      intros z. apply seg_char_spec.
Qed.

Lemma token_lang E s : lang (token_re (e_uword E)) s <-> exists segs, token_of E segs s.
Proof. apply joined_lang. apply segment_lang. Qed.

Lemma count_app c a b : count_char c (a ++ b) = (count_char c a + count_char c b)%nat.
Proof.
  induction a as [|x a IH]; cbn [count_char app]; [reflexivity|]. rewrite IH. apply Nat.add_assoc.
Qed.

Lemma count_none c s : Forall (fun x => x <> c) s -> count_char c s = O.
Proof.
  induction 1 as [|x s Hx Hs IH]; cbn [count_char]; [reflexivity|]. destruct (N.eqb_spec x c); [congruence|exact IH].
Qed.

Lemma segment_no_colon E s : segment E s -> count_char 58 s = O.
Proof.
  intros [H _]. apply count_none. eapply Forall_impl; [|exact H]. intros c Hc ->.
  destruct Hc as [Hc|Hc]; [unfold is_word in Hc; lia|]. cbn in Hc. lia.
Qed.

Lemma count_segs E segs s : token_of E segs s -> S (count_char 58 s) = length segs.
Proof.
  intros [Hf [x [rest [-> ->]]]]. rewrite count_app. inversion Hf as [|? ? Hx Hrest]; subst.
  rewrite (segment_no_colon E x Hx). cbn [length Nat.add]. f_equal. clear - Hrest.
  induction Hrest as [|y rest Hy Hrest IH]; [reflexivity|]. cbn [flat_map].
  change (count_char 58 ((58 :: y) ++ flat_map (fun y0 => 58 :: y0) rest) = length (y :: rest)).
  rewrite count_app. cbn [length]. rewrite IH. change (58 :: y) with ([58] ++ y). rewrite count_app, (segment_no_colon E y Hy). reflexivity.
Qed.

(** @prop C15 A token field accepts exactly the texts that are colon separated segments (of word characters,
    dots, plus and minus, starting and ending with a word character), with one optional newline at the end,
    the number of segments being as required; everything else is rejected. *)
Lemma token_exact :
  forall E desc recon n p segments partial ph ser anc s,
    plain p ->
    let out := process_gen E desc recon n (Fld p (KToken segments)) partial ph ser anc (VStr s) in
    let path := path_of p (KToken segments) anc in
    let well_formed segs := opt_newline (token_of E segs) s in
    (forall segs, well_formed segs -> segments = None \/ segments = Some (Z.of_nat (length segs)) -> out = Ok (VStr s))
    /\ (forall segs, well_formed segs -> segments <> None -> segments <> Some (Z.of_nat (length segs)) ->
          out = fails path $"invalid")
    /\ ((forall segs, ~ well_formed segs) -> out = invalid_type path).
Proof.
  intros E desc recon n p segments partial ph ser anc s Hp out path well_formed.
  assert (Hout : out = validate_value E (KToken segments : kind) path (VStr s)).
  { unfold out. rewrite process_basic by reflexivity. rewrite scalar_plain; [|assumption|reflexivity|reflexivity|discriminate].
    fold path. cbn [unserialize_value bind].
    destruct (ser && phase_eqb ph Inbound); cbn [bind]; destruct (validate_value E _ path (VStr s)) as [r|]; cbn [bind];
      try reflexivity; destruct (ser && phase_eqb ph Outbound); reflexivity. }
  rewrite Hout. clear Hout out. cbn [validate_value].
  assert (Hm : rmatch_dollar (token_re (e_uword E)) s = true <-> exists segs, well_formed segs).
  { rewrite dollar_lang, (opt_newline_iff _ _ _ (token_lang E)). unfold well_formed, opt_newline. split.
    - intros [[g H]|[t [-> [g H]]]]; exists g; [auto|right; exists t; auto].
    - intros [g [H|[t [-> H]]]]; [left; eauto|right; exists t; eauto]. }
  assert (Hc : forall segs, well_formed segs -> S (count_char 58 s) = length segs).
  { intros segs [H|[t [-> H]]]; [eapply count_segs, H|]. rewrite count_app. cbn. rewrite Nat.add_0_r. eapply count_segs, H. }
  split; [|split].
  - intros segs Hw Hs. rewrite (proj2 Hm (ex_intro _ _ Hw)). destruct segments as [k|]; [|reflexivity].
    destruct Hs as [Hs|Hs]; [discriminate|]. injection Hs as ->. rewrite <- (Hc segs Hw).
    destruct (Z.eqb_spec (Z.of_nat (count_char 58 s) + 1) (Z.of_nat (S (count_char 58 s)))); [reflexivity|lia].
  - intros segs Hw Hn Hs. rewrite (proj2 Hm (ex_intro _ _ Hw)). destruct segments as [k|]; [|congruence].
    rewrite <- (Hc segs Hw) in Hs.
    destruct (Z.eqb_spec (Z.of_nat (count_char 58 s) + 1) k) as [He|]; [|reflexivity]. exfalso. apply Hs. f_equal. lia.
  - intros Hno. destruct (rmatch_dollar _ s) eqn:Hr; [|reflexivity]. exfalso. destruct (proj1 Hm eq_refl) as [segs Hw].
    exact (Hno segs Hw).
Qed.

(** @example
Example C15_example :
  token_of env0 [$"a.b"; $"c"] $"a.b:c"
  /\ run0 (Fld p0 (KToken (Some 2%Z))) Inbound true (VStr $"a.b:c") = Ok (VStr $"a.b:c")
  /\ run0 (Fld p0 (KToken (Some 3%Z))) Inbound true (VStr $"a.b:c") = fails [$"(token)"] $"invalid"
  /\ run0 (Fld p0 (KToken None)) Inbound true (VStr $"a.:c") = invalid_type [$"(token)"].
Proof.
  split; [|repeat split; reflexivity]. split.
  - constructor; [|constructor; [|constructor]]; (split; [rewrite Forall_forall; intros c Hc; cbn in *; unfold is_word; lia|]).
    + split; [exists 97%N, $".b"|exists 98%N, $"a."]; (split; [reflexivity|unfold is_word; lia]).
    + split; exists 99%N, []; (split; [reflexivity|unfold is_word; lia]).
  - exists $"a.b", [$"c"]. split; reflexivity.
Qed.
@end *)

(** @prop C15 Other values are rejected. *)
Lemma token_not_text :
  forall E desc recon n p segments partial ph ser anc v,
    plain p -> v <> VNone -> (forall s, v <> VStr s) ->
    process_gen E desc recon n (Fld p (KToken segments)) partial ph ser anc v
    = invalid_type (path_of p (KToken segments) anc).
Proof.
  intros E desc recon n p segments partial ph ser anc v Hp Hv Hs.
  rewrite process_basic by reflexivity. rewrite scalar_plain; [|assumption|reflexivity|reflexivity|assumption].
  cbn [unserialize_value].
  destruct (ser && phase_eqb ph Inbound); cbn [bind validate_value];
    destruct v; try reflexivity; try congruence; exfalso; eapply Hs; reflexivity.
Qed.

(** @example
Example C15_not_text_example :
  run0 (Fld p0 (KToken None)) Inbound true (VInt 5) = invalid_type [$"(token)"].
Proof. reflexivity. Qed.
@end *)

(** ** C16 *)

Lemma hex_spec c : hex_char c = true <-> lower_hex c.
Proof. unfold hex_char, lower_hex, in_rng. lia. Qed.

Lemma rrep_set p m s : lang (rrep m (RSet p)) s <-> length s = m /\ Forall (fun c => p c = true) s.
Proof.
  revert s. induction m as [|m IH]; intros s; cbn [rrep lang].
  - split; [intros ->; auto|]. intros [H _]. destruct s; [reflexivity|discriminate].
  - unfold dot. split.
    + intros [a [b [-> [[c [-> Hc]] Hb]]]]. apply IH in Hb. destruct Hb as [Hl Hb]. cbn. split; [congruence|]. constructor; assumption.
    + intros [Hl H]. destruct s as [|c s]; [discriminate|]. inversion H; subst. exists [c], s. split; [reflexivity|].
      split; [exists c; auto|]. apply IH. cbn in Hl. auto.
Qed.

Lemma hex_group_lang m s : lang (rrep m (RSet hex_char)) s <-> hex_group m s.
Proof.
  rewrite rrep_set. unfold hex_group. split; intros [H1 H2]; (split; [exact H1|]); eapply Forall_impl; try exact H2; intros c; apply hex_spec.
Qed.

Lemma uuid_lang s : lang uuid_re s <-> uuid_text s.
Proof.
  unfold uuid_re, uuid_text. change ($"-") with [45]. split.
  - intros [a [x1 [-> [Ha [y1 [x2 [-> [Hy1 [b [x3 [-> [Hb [y2 [x4 [-> [Hy2 [c [x5 [-> [Hc [y3 [x6 [-> [Hy3
      [d [x7 [-> [Hd [y4 [e [-> [Hy4 He]]]]]]]]]]]]]]]]]]]]]]]]]]]]]]]].
    apply rchar_lang in Hy1. apply rchar_lang in Hy2. apply rchar_lang in Hy3. apply rchar_lang in Hy4. subst.
    apply hex_group_lang in Ha. apply hex_group_lang in Hb. apply hex_group_lang in Hc. apply hex_group_lang in Hd.
    apply hex_group_lang in He. exists a, b, c, d, e. auto 10.
  - intros [a [b [c [d [e [-> [Ha [Hb [Hc [Hd He]]]]]]]]]].
    repeat match goal with
    | |- lang (RCat (rchar _) _) _ => eexists; eexists; split; [reflexivity|]; split; [apply rchar_lang; reflexivity|]
    | |- lang (RCat (rrep _ _) _) _ => eexists; eexists; split; [reflexivity|]; split; [apply hex_group_lang; eassumption|]
    end.
    apply hex_group_lang, He.
Qed.

(** @prop C16 A UUID field accepts exactly the texts of 8-4-4-4-12 lower case hexadecimal digits, with one
    optional newline at the end. *)
Lemma uuid_exact :
  forall E desc recon n p partial ph ser anc v,
    plain p -> v <> VNone ->
    let out := process_gen E desc recon n (Fld p KUUID) partial ph ser anc v in
    (forall s, v = VStr s -> opt_newline uuid_text s -> out = Ok v)
    /\ ((forall s, v = VStr s -> ~ opt_newline uuid_text s) -> out = invalid_type (path_of p KUUID anc)).
Proof.
  intros E desc recon n p partial ph ser anc v Hp Hv out.
  assert (Hout : out = match v with
                       | VStr s => if rmatch_dollar uuid_re s then Ok v else invalid_type (path_of p KUUID anc)
                       | _ => invalid_type (path_of p KUUID anc)
                       end).
  { unfold out. rewrite process_basic by reflexivity. rewrite scalar_plain; [|assumption|reflexivity|reflexivity|assumption].
    cbn [unserialize_value].
    destruct (ser && phase_eqb ph Inbound); cbn [bind validate_value]; destruct v; try reflexivity;
      destruct (rmatch_dollar uuid_re s); try reflexivity; cbn [bind]; destruct (ser && phase_eqb ph Outbound); reflexivity. }
  rewrite Hout. clear Hout out. split.
  - intros s -> H. rewrite <- (opt_newline_iff _ _ _ uuid_lang), <- dollar_lang in H. rewrite H. reflexivity.
  - intros H. destruct v; try reflexivity. specialize (H s eq_refl).
    rewrite <- (opt_newline_iff _ _ _ uuid_lang), <- dollar_lang in H. destruct (rmatch_dollar uuid_re s); [congruence|reflexivity].
Qed.

(** @example
Example C16_example :
  uuid_text $"0a1b2c3d-0000-ffff-9e9e-0123456789ab"
  /\ run0 (Fld p0 KUUID) Inbound true (VStr $"0a1b2c3d-0000-ffff-9e9e-0123456789ab")
     = Ok (VStr $"0a1b2c3d-0000-ffff-9e9e-0123456789ab")
  /\ run0 (Fld p0 KUUID) Inbound true (VStr $"0A1b2c3d-0000-ffff-9e9e-0123456789ab") = invalid_type [$"(uuid)"].
Proof.
  split; [|split; reflexivity].
  exists $"0a1b2c3d", $"0000", $"ffff", $"9e9e", $"0123456789ab".
  split; [reflexivity|]. unfold hex_group, lower_hex.
  repeat match goal with |- _ /\ _ => split end; try reflexivity; rewrite Forall_forall; intros c Hc; cbn in Hc; lia.
Qed.
@end *)

(** ** C17 *)

Lemma rmap_Forall (P : N -> Prop) p s : (forall c, p c = true <-> P c) -> Forall (fun c => p c = true) s <-> Forall P s.
Proof. intros H. split; apply Forall_impl; intros c; apply H. Qed.

Lemma in_list_spec l c : in_list l c = true <-> In c l.
Proof.
  unfold in_list. rewrite existsb_exists. split.
  - intros [x [Hx He]]. apply N.eqb_eq in He. subst x. exact Hx.
  - intros H. exists c. split; [exact H|apply N.eqb_refl].
Qed.

Lemma atom_spec c : atom_char c = true <-> atext c.
Proof.
  unfold atom_char, atext. rewrite orb_true_iff, in_list_spec.
  assert (alnum_char c = true <-> letter c \/ decimal_digit c); [|tauto].
  unfold alnum_char, letter, decimal_digit, in_rng. lia.
Qed.

Lemma qtext_spec c : qtext_char c = true <-> quoted_plain c.
Proof. unfold qtext_char, quoted_plain, in_rng. lia. Qed.
Lemma qpair_spec c : qpair_char c = true <-> quoted_escaped c.
Proof. unfold qpair_char, quoted_escaped, in_rng. lia. Qed.
Lemma alpha_spec c : alpha_char c = true <-> letter c.
Proof. unfold alpha_char, letter, in_rng. lia. Qed.
Lemma label_spec c : label_char c = true <-> letter c \/ decimal_digit c \/ c = 45.
Proof. unfold label_char, alnum_char, letter, decimal_digit, in_rng. lia. Qed.

Lemma star_iff P Q s : (forall t, P t <-> Q t) -> star P s <-> star Q s.
Proof.
  intros H. rewrite !star_concat. split; intros [l [-> Hl]]; exists l; (split; [reflexivity|]);
    eapply Forall_impl; try exact Hl; intros t; apply H.
Qed.

Lemma local_lang s : lang email_local s <-> local_part s.
Proof.
  unfold email_local, local_part.
  assert (H1 : forall t, lang (rplus (RSet atom_char)) t <-> t <> [] /\ Forall atext t).
  { intros t. rewrite rplus_set. rewrite (rmap_Forall atext atom_char) by apply atom_spec. reflexivity. }
  assert (H2 : forall t, lang (RAlt (RSet qtext_char) (RCat (rchar 92) (RSet qpair_char))) t <-> quoted_piece t).
  { intros t. unfold quoted_piece. cbn [lang]. unfold dot. split.
    - intros [[c [-> Hc]]|[a [b [-> [Ha [c [-> Hc]]]]]]].
      + left. exists c. split; [reflexivity|apply qtext_spec, Hc].
      + apply rchar_lang in Ha. subst a. right. exists c. split; [reflexivity|apply qpair_spec, Hc].
    - intros [[c [-> Hc]]|[c [-> Hc]]].
      + left. exists c. split; [reflexivity|apply qtext_spec, Hc].
      + right. exists [92], [c]. split; [reflexivity|]. split; [apply rchar_lang; reflexivity|].
        exists c. split; [reflexivity|apply qpair_spec, Hc]. }
  change (lang (RAlt ?a ?b) s) with (lang a s \/ lang b s).
  rewrite (joined_lang 46 _ _ s H1).
  apply or_iff_compat_l.
  cbn [lang]. unfold dot. split.
  - intros [a [b [-> [Ha [c [d [-> [Hc Hd]]]]]]]]. apply rchar_lang in Ha. apply rchar_lang in Hd. subst.
    apply (star_iff _ _ c H2) in Hc. apply star_concat in Hc. destruct Hc as [l [-> Hl]]. exists l. auto.
  - intros [l [Hl ->]]. exists [34], (concat l ++ [34]). split; [reflexivity|]. split; [apply rchar_lang; reflexivity|].
    exists (concat l), [34]. split; [reflexivity|]. split; [|apply rchar_lang; reflexivity].
    apply (star_iff _ _ _ H2). apply star_concat. eauto.
Qed.

Lemma rrep_opt_set p m s : lang (rrep_opt m (RSet p)) s <-> (length s <= m)%nat /\ Forall (fun c => p c = true) s.
Proof.
  revert s. induction m as [|m IH]; intros s; cbn [rrep_opt ropt lang].
  - split; [intros ->; auto|]. intros [H _]. destruct s; [reflexivity|cbn in H; lia].
  - unfold dot. split.
    + intros [[a [b [-> [[c [-> Hc]] Hb]]]]| ->]; [|split; [cbn; lia|constructor]].
      apply IH in Hb. destruct Hb as [Hl Hb]. cbn. split; [lia|]. constructor; assumption.
    + intros [Hl H]. destruct s as [|c s]; [right; reflexivity|]. left. inversion H; subst. exists [c], s. split; [reflexivity|].
      split; [exists c; auto|]. apply IH. cbn in Hl. split; [lia|assumption].
Qed.

Lemma domain_lang s : lang email_domain s <-> domain s.
Proof.
  unfold email_domain, domain.
  assert (H1 : forall t, lang (RCat (rplus (RSet label_char)) (rchar 46)) t <-> exists l, t = l ++ $"." /\ domain_label l).
  { intros t. change ($".") with [46]. split.
    - intros [a [b [-> [Ha Hb]]]]. apply rchar_lang in Hb. subst b. apply rplus_set in Ha. destruct Ha as [Hn Ha].
      exists a. split; [reflexivity|]. split; [exact Hn|]. apply (rmap_Forall _ _ _ label_spec), Ha.
    - intros [l [-> [Hn Hl]]]. exists l, [46]. split; [reflexivity|]. split; [|apply rchar_lang; reflexivity].
      apply rplus_set. split; [exact Hn|]. apply (rmap_Forall _ _ _ label_spec), Hl. }
  assert (H2 : forall t, lang (RCat (rrep 2 (RSet alpha_char)) (rrep_opt 4 (RSet alpha_char))) t
                         <-> (2 <= length t <= 6)%nat /\ Forall letter t).
  { intros t. rewrite <- (rmap_Forall letter alpha_char) by apply alpha_spec. split.
    - intros [a [b [-> [Ha Hb]]]]. apply rrep_set in Ha. apply rrep_opt_set in Hb. rewrite app_length.
      split; [lia|]. apply Forall_app. split; [apply Ha|apply Hb].
    - intros [Hl Ht]. exists (firstn 2 t), (skipn 2 t). rewrite firstn_skipn. split; [reflexivity|].
      rewrite <- (firstn_skipn 2 t) in Ht. apply Forall_app in Ht. split.
      + apply rrep_set. split; [rewrite firstn_length; lia|apply Ht].
      + apply rrep_opt_set. split; [rewrite skipn_length; lia|apply Ht]. }
  assert (H3 : forall t, star (lang (RCat (rplus (RSet label_char)) (rchar 46))) t
               <-> exists ls, t = flat_map (fun l => l ++ $".") ls /\ Forall domain_label ls).
  { intros t. rewrite star_concat. split.
    - intros [l [-> Hl]]. induction Hl as [|x l Hx Hl IH]; [exists []; auto|].
      apply H1 in Hx. destruct Hx as [y [-> Hy]]. destruct IH as [ls [IH Hls]]. exists (y :: ls). cbn [concat flat_map].
      rewrite IH. auto.
    - intros [ls [-> Hls]]. exists (map (fun l => l ++ $".") ls). split; [apply flat_map_concat_map|].
      apply Forall_map. eapply Forall_impl; [|exact Hls]. intros l Hl. apply H1. eauto. }
  split.
  - intros [a [b [-> [[x [y [-> [Hx Hy]]]] Hb]]]]. apply H1 in Hx. destruct Hx as [l [-> Hl]]. apply H3 in Hy.
    destruct Hy as [ls [-> Hls]]. apply H2 in Hb. exists (l :: ls), b. split; [discriminate|]. split; [auto|].
    split; [apply Hb|]. split; [apply Hb|]. cbn [flat_map]. rewrite <- !app_assoc. reflexivity.
  - intros [ls [top [Hn [Hls [Ht [Hl ->]]]]]]. destruct Hls as [|l ls Hl' Hls]; [contradiction|].
    exists (flat_map (fun l => l ++ $".") (l :: ls)), top. split; [reflexivity|]. split.
    + exists (l ++ $"."), (flat_map (fun l => l ++ $".") ls). split; [reflexivity|]. split; [apply H1; eauto|]. apply H3. eauto.
    + apply H2. auto.
Qed.

Lemma address_lang s : lang email_expr s <-> address s.
Proof.
  unfold email_expr, address. change ($"@") with [64]. split.
  - intros [l [b [-> [Hl [a [d [-> [Ha Hd]]]]]]]]. apply rchar_lang in Ha. subst a. apply local_lang in Hl. apply domain_lang in Hd.
    exists l, d. auto.
  - intros [l [d [-> [Hl Hd]]]]. exists l, ([64] ++ d). split; [reflexivity|]. split; [apply local_lang, Hl|].
    exists [64], d. split; [reflexivity|]. split; [apply rchar_lang; reflexivity|apply domain_lang, Hd].
Qed.

Lemma email_lang multiple s : lang (email_pattern multiple false) s <-> email_text multiple s.
Proof.
  unfold email_pattern, email_text. destruct multiple.
  - unfold email_list_re, ropt. change (lang (RAlt ?a ?b) s) with (lang a s \/ s = []).
    rewrite (joined_lang 44 _ _ s address_lang). tauto.
  - unfold email_re, ropt. change (lang (RAlt ?a ?b) s) with (lang a s \/ s = []). rewrite address_lang. tauto.
Qed.

Lemma separator_spec c : is_separator c = true <-> separator c.
Proof.
  unfold is_separator, separator, is_ascii_space. rewrite orb_true_iff, in_list_spec.
  assert ((9 <=? c) && (c <=? 13) || (c =? 32) = true <-> 9 <= c <= 13 \/ c = 32) by lia. tauto.
Qed.

Lemma separator_not c : is_separator c = false <-> ~ separator c.
Proof. rewrite <- separator_spec. destruct (is_separator c); split; congruence. Qed.

Lemma trimmed_strip s t : trimmed s t <-> t = strip is_separator s.
Proof.
  split.
  - intros [a [b [-> [Ha [Hb [Hhd Htl]]]]]]. symmetry. apply strip_app.
    + apply (rmap_Forall _ _ _ separator_spec), Ha.
    + apply (rmap_Forall _ _ _ separator_spec), Hb.
    + intros c r H. apply separator_not. eapply Hhd, H.
    + intros c r H. apply separator_not. eapply Htl, H.
  - intros ->. unfold strip.
    destruct (lstrip_spec is_separator s) as (a & Hs & Ha & Hl).
    destruct (rstrip_spec is_separator (lstrip is_separator s)) as (b & Hr & Hb & Hlast).
    exists a, b. split; [|split; [|split; [|split]]].
    + rewrite <- Hr. exact Hs.
    + rewrite Forall_forall. intros c Hc. apply separator_spec. revert c Hc. apply forallb_forall. exact Ha.
    + rewrite Forall_forall. intros c Hc. apply separator_spec. revert c Hc. apply forallb_forall. exact Hb.
    + intros c r Hc. apply separator_not. destruct (rstrip_head _ _ _ _ Hc) as [r' Hr']. eapply Hl, Hr'.
    + intros c r Hc. apply separator_not. eapply Hlast, Hc.
Qed.

Lemma lowercase_lower E s t : lowercase E s t <-> t = lower (e_ulower E) s.
Proof.
  unfold lowercase, lower.
  assert (H : forall c u, ((65 <= c <= 90 /\ u = [c + 32]) \/ (c < 128 /\ ~ 65 <= c <= 90 /\ u = [c])
                           \/ (128 <= c /\ u = e_ulower E c))
                          <-> u = if c <? 128 then [lower_ascii c] else e_ulower E c).
  { intros c u. unfold lower_ascii. destruct (N.ltb_spec c 128) as [H1|H1].
    - destruct ((65 <=? c) && (c <=? 90)) eqn:H2; split.
      + intros [[_ H]|[[_ [H _]]|[H _]]]; [exact H|lia|lia].
      + intros ->. left. split; [lia|reflexivity].
      + intros [[H _]|[[_ [_ H]]|[H _]]]; [lia|exact H|lia].
      + intros ->. right. left. split; [lia|]. split; [lia|reflexivity].
    - split; [intros [[H _]|[[H _]|[_ H]]]; [lia|lia|exact H]|]. intros ->. right. right. auto. }
  split.
  - intros [l [Hl ->]]. induction Hl as [|c u s l Hc Hl IH]; [reflexivity|]. cbn [concat flat_map]. rewrite IH.
    apply H in Hc. rewrite Hc. reflexivity.
  - intros ->. exists (map (fun c => if c <? 128 then [lower_ascii c] else e_ulower E c) s).
    split; [|apply flat_map_concat_map]. induction s as [|c s IH]; cbn [map]; constructor; [apply H; reflexivity|exact IH].
Qed.

Lemma separator_re_spec c : is_separator_re c = true <-> separator_re c.
Proof. unfold is_separator_re, separator_re. rewrite orb_true_iff, in_list_spec. reflexivity. Qed.

Lemma separator_re_not c : is_separator_re c = false <-> ~ separator_re c.
Proof. rewrite <- separator_re_spec. destruct (is_separator_re c); split; congruence. Qed.

Lemma sub_words w x b : Forall (fun c => ~ separator_re c) w -> w <> [] ->
  sub_separators b (w ++ x) = w ++ sub_separators false x.
Proof.
  intros H. revert b. induction H as [|c w Hc Hw IH]; intros b Hn; [contradiction|]. cbn [app sub_separators].
  apply separator_re_not in Hc. rewrite Hc. f_equal. destruct w as [|d w]; [reflexivity|]. apply IH. discriminate.
Qed.

Lemma sub_words_false w x : Forall (fun c => ~ separator_re c) w ->
  sub_separators false (w ++ x) = w ++ sub_separators false x.
Proof. intros H. destruct w as [|c w]; [reflexivity|]. apply sub_words; [exact H|discriminate]. Qed.

Lemma sub_run run rest : Forall separator_re run -> sub_separators true (run ++ rest) = sub_separators true rest.
Proof.
  induction 1 as [|c run Hc Hr IH]; [reflexivity|]. cbn [app sub_separators]. apply separator_re_spec in Hc. rewrite Hc. exact IH.
Qed.

Lemma sub_after rest : (forall c r, rest = c :: r -> ~ separator_re c) -> sub_separators true rest = sub_separators false rest.
Proof.
  intros H. destruct rest as [|c r]; [reflexivity|]. cbn [sub_separators]. specialize (H c r eq_refl).
  apply separator_re_not in H. rewrite H. reflexivity.
Qed.

Lemma commas_sub s t : commas s t -> t = sub_separators false s.
Proof.
  induction 1 as [w Hw|w run rest t Hw Hn Hr Hrest Hc IH].
  - rewrite <- (app_nil_r w) at 2. rewrite sub_words_false by exact Hw. cbn. rewrite app_nil_r. reflexivity.
  - rewrite sub_words_false by exact Hw. f_equal. destruct Hr as [|c run Hc' Hr]; [contradiction|].
    cbn [app sub_separators]. apply separator_re_spec in Hc'. rewrite Hc'. cbn [app]. rewrite sub_run by exact Hr.
    rewrite sub_after by exact Hrest. rewrite IH. reflexivity.
Qed.

(** The longest prefix of [s] whose characters satisfy [p]. *)
Lemma span_spec (p : N -> bool) s :
  exists a b, s = a ++ b /\ Forall (fun c => p c = true) a /\ (forall c r, b = c :: r -> p c = false).
Proof.
  induction s as [|c s [a [b [-> [Ha Hb]]]]].
  - exists [], []. split; [reflexivity|]. split; [constructor|discriminate].
  - destruct (p c) eqn:Hc.
    + exists (c :: a), b. auto.
    + exists [], (c :: a ++ b). split; [reflexivity|]. split; [constructor|]. intros d r [= <- _]. exact Hc.
Qed.

Lemma commas_total s : commas s (sub_separators false s).
Proof.
  remember (length s) as m eqn:Hm. assert (Hle : (length s <= m)%nat) by lia. clear Hm. revert s Hle.
  induction m as [|m IH]; intros s Hle.
  - destruct s; [|cbn in Hle; lia]. constructor. constructor.
  - destruct (span_spec (fun c => negb (is_separator_re c)) s) as [w [x [-> [Hw Hx]]]].
    assert (Hw' : Forall (fun c => ~ separator_re c) w).
    { eapply Forall_impl; [|exact Hw]. intros c Hc. cbv beta in Hc. apply separator_re_not. destruct (is_separator_re c); [discriminate|reflexivity]. }
    destruct x as [|c x].
    + rewrite app_nil_r. rewrite <- (app_nil_r w) at 2. rewrite sub_words_false by exact Hw'. cbn. rewrite app_nil_r. constructor. exact Hw'.
    + destruct (span_spec is_separator_re (c :: x)) as [run [rest [He [Hr Hrest]]]].
      specialize (Hx c x eq_refl). cbv beta in Hx.
      assert (Hn : run <> []).
      { intros ->. cbn in He. specialize (Hrest c x (eq_sym He)). rewrite Hrest in Hx. discriminate. }
      assert (Hr' : Forall separator_re run) by (eapply Forall_impl; [|exact Hr]; intros d; apply separator_re_spec).
      assert (Hrest' : forall d r, rest = d :: r -> ~ separator_re d) by (intros d r Hd; apply separator_re_not; eapply Hrest, Hd).
      rewrite He in *.
      assert (Hs : sub_separators false (w ++ run ++ rest) = w ++ $"," ++ sub_separators false rest).
      { rewrite sub_words_false by exact Hw'. f_equal. destruct Hr' as [|e run He' Hr']; [contradiction|].
        cbn [app sub_separators]. apply separator_re_spec in He'. rewrite He'. cbn [app]. rewrite sub_run by exact Hr'.
        rewrite sub_after by exact Hrest'. reflexivity. }
      rewrite Hs. constructor; try assumption. apply IH. rewrite !app_length in Hle. destruct run; [contradiction|]. cbn [length] in Hle. lia.
Qed.

Lemma email_normal_eq E multiple s t : email_normal E multiple s t <-> t = email_preprocess (e_ulower E) multiple false s.
Proof.
  unfold email_normal, email_preprocess. split.
  - intros [a [b [Ha [Hb Ht]]]]. apply trimmed_strip in Ha. apply lowercase_lower in Hb. subst a b.
    destruct multiple; [apply commas_sub, Ht|exact Ht].
  - intros ->. eexists. eexists. split; [apply trimmed_strip; reflexivity|]. split; [apply lowercase_lower; reflexivity|].
    destruct multiple; [apply commas_total|reflexivity].
Qed.

(** What lower-casing may not do to characters above ASCII: vanish or become a newline. *)
Lemma normal_no_newline E multiple s u :
  (forall c, 128 <= c -> e_ulower E c <> [] /\ ~ In 10 (e_ulower E c)) ->
  ~ email_normal E multiple s (u ++ [10]).
Proof.
  intros Hu [a [b [Ha [Hb Ht]]]]. destruct multiple.
  - assert (Hin : forall s t, commas s t -> ~ In 10 t).
    { clear. assert (Hw : forall w, Forall (fun c => ~ separator_re c) w -> ~ In 10 w).
      { intros w Hw Hin. rewrite Forall_forall in Hw. apply (Hw 10 Hin). left. reflexivity. }
      induction 1 as [w H|w run rest t H Hn Hr Hrest Hc IH]; [apply Hw, H|].
      rewrite !in_app_iff. intros [Hi|[Hi|Hi]]; [exact (Hw w H Hi)| |exact (IH Hi)]. cbn in Hi. lia. }
    apply (Hin _ _ Ht). apply in_or_app. right. left. reflexivity.
  - subst b. apply lowercase_lower in Hb. destruct Ha as [x [y [_ [_ [_ [_ Hlast]]]]]].
    destruct a as [|c a] using rev_ind; [destruct u; discriminate|]. clear IHa. specialize (Hlast c a eq_refl).
    unfold lower in Hb. rewrite flat_map_app in Hb. cbn [flat_map] in Hb. rewrite app_nil_r in Hb.
    assert (Hl : exists d r, (if c <? 128 then [lower_ascii c] else e_ulower E c) = r ++ [d] /\ d <> 10).
    { destruct (N.ltb_spec c 128) as [Hc|Hc].
      - exists (lower_ascii c), []. split; [reflexivity|]. unfold separator in Hlast. unfold lower_ascii.
        destruct ((65 <=? c) && (c <=? 90)); lia.
      - destruct (Hu c Hc) as [Hn Hi]. destruct (e_ulower E c) as [|d r] using rev_ind; [contradiction|].
        exists d, r. split; [reflexivity|]. intros ->. apply Hi. apply in_or_app. right. left. reflexivity. }
    destruct Hl as [d [r [Hr Hd]]]. rewrite Hr, app_assoc in Hb. apply app_inj_tail in Hb. destruct Hb as [_ Hb]. congruence.
Qed.

(** @prop C17 Email (not extended): the normal form [t] of a text (separators trimmed, lower case, and in
    multiple mode runs of separators turned into commas) exists and is unique; processing gives [t]
    exactly when it is empty or an address (a comma separated list of addresses in multiple mode) and
    meets the length bounds; otherwise the token says which constraint failed. *)
Lemma email_exact :
  forall E desc recon n p multiple mn mx partial ph ser anc s,
    plain p ->
    (forall c, (128 <= c)%N -> e_ulower E c <> [] /\ ~ In 10%N (e_ulower E c)) ->
    let k := KEmail multiple false mn mx in
    let out := process_gen E desc recon n (Fld p k) partial ph ser anc (VStr s) in
    let path := path_of p k anc in
    (exists! t, email_normal E multiple s t)
    /\ forall t, email_normal E multiple s t ->
        let len := Z.of_nat (length t) in
        (forall r, out = Ok r <->
                   r = VStr t /\ at_least Z.le mn len /\ at_most Z.le mx len /\ email_text multiple t)
        /\ (~ at_least Z.le mn len -> out = fails path $"min_length")
        /\ (at_least Z.le mn len -> ~ at_most Z.le mx len -> out = fails path $"max_length")
        /\ (at_least Z.le mn len -> at_most Z.le mx len -> ~ email_text multiple t ->
             out = fails path $"pattern").
Proof.
  intros E desc recon n p multiple mn mx partial ph ser anc s Hp Hu k out path. split.
  { exists (email_preprocess (e_ulower E) multiple false s). split.
    - apply email_normal_eq. reflexivity.
    - intros t Ht. symmetry. apply email_normal_eq, Ht. }
  intros t Ht len.
  assert (Hout : out = (do r <- check_length path mn mx len (VStr t);
                        if rmatch_dollar (email_pattern multiple false) t then Ok r else verr path $"pattern")).
  { pose proof Ht as Ht'. apply email_normal_eq in Ht'.
    assert (Hv : validate_value E (k : kind) path (VStr t) =
                 (do r <- check_length path mn mx len (VStr t);
                  if rmatch_dollar (email_pattern multiple false) t then Ok r else verr path $"pattern")) by reflexivity.
    unfold out. rewrite process_basic by reflexivity. fold path. unfold process_scalar.
    destruct Hp as [Hpre Hc]. rewrite is_null_some by discriminate. unfold preprocess. rewrite Hpre, Hc.
    cbn [bind kind_ignored k is_none negb unserialize_value]. rewrite <- Hv.
    destruct (ser && phase_eqb ph Inbound); cbn [bind]; rewrite <- Ht';
      destruct (validate_value E (k : kind) path (VStr t)) as [r|x]; cbn [bind]; try reflexivity;
      destruct (ser && phase_eqb ph Outbound); reflexivity. }
  assert (Hm : rmatch_dollar (email_pattern multiple false) t = true <-> email_text multiple t).
  { rewrite dollar_lang, (opt_newline_iff _ _ _ (email_lang multiple)). split; [|left; assumption].
    intros [H|[u [-> H]]]; [exact H|]. exfalso. exact (normal_no_newline E multiple s u Hu Ht). }
  destruct (check_length_spec path mn mx len (VStr t))
    as [[H1 [H2 H]]|[[[m [Hm1 Hx]] H]|[H1 [[m [Hm1 Hx]] H]]]]; rewrite H in Hout; cbn [bind verr] in Hout.
  - split; [|split; [|split]].
    + intros r. rewrite Hout. destruct (rmatch_dollar _ t).
      * split; [intros [= <-]; repeat split; auto; apply Hm; reflexivity|]. intros [-> _]. reflexivity.
      * split; [discriminate|]. intros [_ [_ [_ H3]]]. apply Hm in H3. discriminate.
    + intros H3. contradiction.
    + intros _ H3. contradiction.
    + intros _ _ H3. rewrite Hout. destruct (rmatch_dollar _ t); [|reflexivity]. exfalso. apply H3, Hm. reflexivity.
  - assert (Hn : ~ at_least Z.le mn len).
    { intros H3. specialize (H3 m Hm1). lia. }
    split; [|split; [|split]]; try (intros; contradiction).
    + intros r. rewrite Hout. split; [discriminate | intros [_ [H3 _]]; contradiction].
    + intros _. exact Hout.
  - assert (Hn : ~ at_most Z.le mx len).
    { intros H3. specialize (H3 m Hm1). lia. }
    split; [|split; [|split]]; try (intros; contradiction).
    + intros r. rewrite Hout. split; [discriminate | intros [_ [_ [H3 _]]]; contradiction].
    + intros _ _. exact Hout.
Qed.

(** @example
Example C17_example :
  address $"joe.b@example.com"
  /\ run0 (Fld p0 (KEmail false false None None)) Inbound true (VStr $" Joe.B@Example.COM;") = Ok (VStr $"joe.b@example.com")
  /\ run0 (Fld p0 (KEmail true false None None)) Inbound true (VStr $"a@b.cc; D@e.ff")= Ok (VStr $"a@b.cc,d@e.ff")
  /\ run0 (Fld p0 (KEmail false false None None)) Inbound true (VStr $"a@b.c") = fails [$"(email)"] $"pattern"
  /\ (forall c, (128 <= c)%N -> e_ulower env0 c <> [] /\ ~ In 10%N (e_ulower env0 c)).
Proof.
  split; [|split; [reflexivity|]; split; [reflexivity|]; split; [reflexivity|]; intros c Hc; cbn; split; [discriminate|lia]].
  exists $"joe.b", $"example.com". split; [reflexivity|]. split.
  - left. exists [$"joe"; $"b"]. split; [|exists $"joe", [$"b"]; split; reflexivity].
    constructor; [|constructor; [|constructor]]; (split; [discriminate|]);
      rewrite Forall_forall; intros c Hc; cbn in Hc; left; right; lia.
  - exists [$"example"], $"com". split; [discriminate|]. split; [|split; [|split; [cbn; lia|reflexivity]]].
    + constructor; [|constructor]. split; [discriminate|]. rewrite Forall_forall; intros c Hc; cbn in Hc; left; right; lia.
    + rewrite Forall_forall; intros c Hc; cbn in Hc; right; lia.
Qed.
@end *)

(** @prop C17 Email (not extended) rejects what is neither text nor null: its preprocessor fails. *)
Lemma email_not_text :
  forall E desc recon n p multiple mn mx partial ph ser anc v,
    plain p -> v <> VNone -> (forall s, v <> VStr s) ->
    let k := KEmail multiple false mn mx in
    process_gen E desc recon n (Fld p k) partial ph ser anc v = invalid_type (path_of p k anc).
Proof.
  intros E desc recon n p multiple mn mx partial ph ser anc v [Hpre Hc] Hv Hs k.
  rewrite process_basic by reflexivity. unfold process_scalar. rewrite is_null_some by exact Hv.
  unfold preprocess. rewrite Hpre. cbn [bind kind_ignored k unserialize_value].
  destruct (ser && phase_eqb ph Inbound); cbn [bind]; destruct v; try reflexivity; try congruence; exfalso; eapply Hs; reflexivity.
Qed.

(** @example
Example C17_not_text_example :
  run0 (Fld p0 (KEmail false false None None)) Inbound true (VInt 5) = invalid_type [$"(email)"].
Proof. reflexivity. Qed.
@end *)

Lemma extended_lang s : lang email_extended_re s <-> s = [] \/ address s \/ named_address s.
Proof.
  unfold email_extended_re, ropt. change (lang (RAlt (RAlt ?a (RAlt ?b ?c)) REps) s) with
    ((lang a s \/ (lang b s \/ lang c s)) \/ s = []). rewrite address_lang.
  assert (Hb : forall t, lang (rplus (rchar 32)) t <-> t <> [] /\ Forall (fun c => c = 32) t).
  { intros t. unfold rchar. rewrite rplus_set. rewrite (rmap_Forall (fun c => c = 32)); [reflexivity|]. intros c. lia. }
  assert (Hq : forall x t, lang (rplus (RSet (fun c => negb (c =? x)))) t <-> t <> [] /\ Forall (fun c => c <> x) t).
  { intros x t. rewrite rplus_set. rewrite (rmap_Forall (fun c => c <> x)); [reflexivity|]. intros c. lia. }
  assert (Htail : forall t, lang (RCat (rplus (rchar 32)) (RCat (rchar 60) (RCat email_expr (rchar 62)))) t <->
            exists blanks a, t = blanks ++ $"<" ++ a ++ $">" /\ blanks <> [] /\ Forall (fun c => c = 32) blanks /\ address a).
  { intros t. change ($"<") with [60]. change ($">") with [62]. split.
    - intros [b [x [-> [H1 [y [z [-> [H2 [a [w [-> [H3 H4]]]]]]]]]]]]. apply Hb in H1. apply rchar_lang in H2. apply rchar_lang in H4.
      apply address_lang in H3. subst. exists b, a. tauto.
    - intros [b [a [-> [H1 [H2 H3]]]]]. exists b, ([60] ++ a ++ [62]). split; [reflexivity|]. split; [apply Hb; auto|].
      exists [60], (a ++ [62]). split; [reflexivity|]. split; [apply rchar_lang; reflexivity|].
      exists a, [62]. split; [reflexivity|]. split; [apply address_lang, H3|apply rchar_lang; reflexivity]. }
  assert (HB : lang (RCat (rplus (RSet (fun c => negb (c =? 60)))) (RCat (rplus (rchar 32)) (RCat (rchar 60) (RCat email_expr (rchar 62))))) s
     <-> exists name blanks a, s = name ++ blanks ++ $"<" ++ a ++ $">" /\ blanks <> [] /\ Forall (fun c => c = 32) blanks /\ address a
           /\ name <> [] /\ Forall (fun c => c <> 60) name).
  { split.
    - intros [nm [x [-> [H1 H2]]]]. apply Hq in H1. apply Htail in H2. destruct H2 as [b [a [-> H2]]]. exists nm, b, a. tauto.
    - intros [nm [b [a [-> H]]]]. exists nm, (b ++ $"<" ++ a ++ $">"). split; [reflexivity|]. split; [apply Hq; tauto|].
      apply Htail. exists b, a. tauto. }
  assert (HA : lang (RCat (rchar 34) (RCat (rplus (RSet (fun c => negb (c =? 34)))) (RCat (rchar 34)
               (RCat (rplus (rchar 32)) (RCat (rchar 60) (RCat email_expr (rchar 62))))))) s
     <-> exists q blanks a, s = ([34] ++ q ++ [34]) ++ blanks ++ $"<" ++ a ++ $">" /\ blanks <> [] /\ Forall (fun c => c = 32) blanks /\ address a
           /\ q <> [] /\ Forall (fun c => c <> 34) q).
  { split.
    - intros [x [y [-> [H1 [q [z [-> [H2 [w [u [-> [H3 H4]]]]]]]]]]]]. apply rchar_lang in H1. apply rchar_lang in H3. subst.
      apply Hq in H2. apply Htail in H4. destruct H4 as [b [a [-> H4]]]. exists q, b, a. rewrite <- !app_assoc. tauto.
    - intros [q [b [a [-> H]]]]. exists [34], (q ++ [34] ++ b ++ $"<" ++ a ++ $">"). rewrite <- !app_assoc. split; [reflexivity|].
      split; [apply rchar_lang; reflexivity|]. exists q, ([34] ++ b ++ $"<" ++ a ++ $">"). split; [reflexivity|]. split; [apply Hq; tauto|].
      exists [34], (b ++ $"<" ++ a ++ $">"). split; [reflexivity|]. split; [apply rchar_lang; reflexivity|].
      apply Htail. exists b, a. tauto. }
  rewrite HA, HB. unfold named_address. split.
  - intros [[[q [b [a [-> H]]]]|[[nm [b [a [-> H]]]]|H]]|H]; [| |tauto|tauto].
    + right. right. exists ([34] ++ q ++ [34]), b, a. split; [reflexivity|]. split; [tauto|]. split; [tauto|]. split; [tauto|].
      right. exists q. tauto.
    + right. right. exists nm, b, a. tauto.
  - intros [H|[H|[nm [b [a [-> [H1 [H2 [H3 [H4|[q [-> [H4 H5]]]]]]]]]]]]]; [tauto|tauto| |].
    + left. right. left. exists nm, b, a. tauto.
    + left. left. exists q, b, a. tauto.
Qed.

(** @prop C17 An extended Email field takes the text as it is: nothing, an address, or a display name followed
    by spaces and an address in angle brackets, with one optional newline at the end. *)
Lemma email_extended_exact :
  forall E desc recon n p partial ph ser anc s,
    plain p ->
    let k := KEmail false true None None in
    let out := process_gen E desc recon n (Fld p k) partial ph ser anc (VStr s) in
    let good := opt_newline (fun t => t = [] \/ address t \/ named_address t) s in
    (good -> out = Ok (VStr s)) /\ (~ good -> out = fails (path_of p k anc) $"pattern").
Proof.
  intros E desc recon n p partial ph ser anc s Hp k out good.
  assert (Hout : out = if rmatch_dollar email_extended_re s then Ok (VStr s) else fails (path_of p k anc) $"pattern").
  { unfold out. rewrite process_basic by reflexivity. unfold process_scalar.
    destruct Hp as [Hpre Hc]. rewrite is_null_some by discriminate. unfold preprocess. rewrite Hpre, Hc.
    cbn [bind kind_ignored k is_none negb unserialize_value].
    assert (Hv : validate_value E (k : kind) (path_of p k anc) (VStr s) =
                 if rmatch_dollar email_extended_re s then Ok (VStr s) else fails (path_of p k anc) $"pattern") by reflexivity.
    rewrite <- Hv. change (email_preprocess (e_ulower E) false true s) with s.
    destruct (ser && phase_eqb ph Inbound); cbn [bind];
      destruct (validate_value E (k : kind) (path_of p k anc) (VStr s)) as [r|x]; cbn [bind]; try reflexivity;
      destruct (ser && phase_eqb ph Outbound); reflexivity. }
  assert (Hm : rmatch_dollar email_extended_re s = true <-> good).
  { rewrite dollar_lang. apply opt_newline_iff. apply extended_lang. }
  rewrite Hout. split.
  - intros H. apply Hm in H. rewrite H. reflexivity.
  - intros H. destruct (rmatch_dollar email_extended_re s); [|reflexivity]. exfalso. apply H, Hm. reflexivity.
Qed.

(** @example
Example C17_extended_example :
  run0 (Fld p0 (KEmail false true None None)) Inbound true (VStr $"Joe B <joe@b.com>") = Ok (VStr $"Joe B <joe@b.com>")
  /\ run0 (Fld p0 (KEmail false true None None)) Inbound true (VStr $"Joe B<joe@b.com>") = fails [$"(email)"] $"pattern".
Proof. split; reflexivity. Qed.
@end *)

(** ** Normal forms are normal *)

Lemma sub_idem s : sub_separators false (sub_separators false s) = sub_separators false s
                   /\ sub_separators true (sub_separators true s) = sub_separators true s.
Proof.
  induction s as [|c s [IH1 IH2]]; [auto|]. cbn [sub_separators]. destruct (is_separator_re c) eqn:Hc; cbn [app].
  - split; [|exact IH2]. cbn [sub_separators app]. change (is_separator_re 44) with true. cbn [app]. rewrite IH2. reflexivity.
  - cbn [sub_separators]. rewrite Hc. cbn [app]. rewrite IH1. auto.
Qed.

(** Characters that lower casing keeps. *)
Definition stable_char (E : env) (d : N) : Prop := (if d <? 128 then [lower_ascii d] else e_ulower E d) = [d].

Lemma kept_lower E s : Forall (stable_char E) s -> lower (e_ulower E) s = s.
Proof.
  induction 1 as [|d s Hd Hs IH]; [reflexivity|]. unfold lower in *. cbn [flat_map]. rewrite Hd, IH. reflexivity.
Qed.

Lemma lower_one E c : lowers E ->
  exists d r, (if c <? 128 then [lower_ascii c] else e_ulower E c) = d :: r
    /\ Forall (stable_char E) (d :: r) /\ (~ separator c -> Forall (fun x => ~ separator x) (d :: r)).
Proof.
  intros HE. destruct (N.ltb_spec c 128) as [Hc|Hc].
  - exists (lower_ascii c), []. split; [reflexivity|].
    assert (Hl : lower_ascii c < 128 /\ ~ 65 <= lower_ascii c <= 90 /\ (lower_ascii c = c \/ 97 <= lower_ascii c <= 122)).
    { unfold lower_ascii. destruct ((65 <=? c) && (c <=? 90)) eqn:H; lia. }
    destruct Hl as [H1 [H2 H3]]. split; constructor; try constructor.
    + unfold stable_char. rewrite (proj2 (N.ltb_lt _ _) H1). unfold lower_ascii at 1.
      destruct ((65 <=? lower_ascii c) && (lower_ascii c <=? 90)) eqn:H; [lia|reflexivity].
    + destruct H3 as [-> | H3]; [exact H|]. unfold separator. cbn. lia.
  - destruct (HE c Hc) as [Hn Hd]. destruct (e_ulower E c) as [|d r]; [contradiction|]. exists d, r. split; [reflexivity|].
    split; [|intros _]; rewrite Forall_forall; intros x Hx; destruct (Hd x Hx) as [H1 [H2 H3]]; [|exact H1].
    unfold stable_char. destruct (N.ltb_spec x 128) as [Hl|Hl]; [|apply H3, Hl].
    unfold lower_ascii. destruct ((65 <=? x) && (x <=? 90)) eqn:H; [lia|reflexivity].
Qed.

Lemma lower_kept E s : lowers E -> Forall (stable_char E) (lower (e_ulower E) s).
Proof.
  intros HE. induction s as [|c s IH]; [constructor|]. unfold lower in *. cbn [flat_map]. apply Forall_app. split; [|exact IH].
  destruct (lower_one E c HE) as [d [r [-> [H _]]]]. exact H.
Qed.

Lemma lower_ends E s : lowers E ->
  (forall c r, s = c :: r -> ~ separator c) -> (forall c r, s = r ++ [c] -> ~ separator c) ->
  (forall c r, lower (e_ulower E) s = c :: r -> ~ separator c) /\ (forall c r, lower (e_ulower E) s = r ++ [c] -> ~ separator c).
Proof.
  intros HE H1 H2. split.
  - intros x r Hx. destruct s as [|c s]; [discriminate|]. unfold lower in Hx. cbn [flat_map] in Hx.
    destruct (lower_one E c HE) as [d [r' [Hd [_ Hs]]]]. rewrite Hd in Hx. injection Hx as -> _.
    specialize (Hs (H1 c s eq_refl)). inversion Hs; assumption.
  - intros x r Hx. destruct s as [|c s] using rev_ind; [destruct r; discriminate|]. clear IHs.
    unfold lower in Hx. rewrite flat_map_app in Hx. cbn [flat_map] in Hx. rewrite app_nil_r in Hx.
    destruct (lower_one E c HE) as [d [r' [Hd [_ Hs]]]]. rewrite Hd in Hx. specialize (Hs (H2 c s eq_refl)).
    destruct (exists_last (l := d :: r') ltac:(discriminate)) as [u [y Hy]]. rewrite Hy in Hx, Hs.
    rewrite app_assoc in Hx. apply app_inj_tail in Hx. destruct Hx as [_ ->].
    apply Forall_app in Hs. destruct Hs as [_ Hs]. inversion Hs; assumption.
Qed.

Lemma sub_in b s d : In d (sub_separators b s) -> d = 44 \/ In d s /\ ~ separator_re d.
Proof.
  revert b. induction s as [|c s IH]; intros b Hd; [contradiction|]. cbn [sub_separators] in Hd.
  destruct (is_separator_re c) eqn:Hc.
  - apply in_app_or in Hd. destruct Hd as [Hd|Hd].
    + destruct b; [contradiction|]. destruct Hd as [<-|[]]. auto.
    + destruct (IH _ Hd) as [H|[H1 H2]]; [auto|]. right. split; [right; exact H1|exact H2].
  - destruct Hd as [<-|Hd]; [right; split; [left; reflexivity|apply separator_re_not, Hc]|].
    destruct (IH _ Hd) as [H|[H1 H2]]; [auto|]. right. split; [right; exact H1|exact H2].
Qed.

Lemma address_ends a : address a ->
  (exists c r, a = c :: r /\ ~ separator c) /\ (exists c r, a = r ++ [c] /\ ~ separator c).
Proof.
  intros [l [d [-> [Hl Hd]]]]. split.
  - destruct Hl as [[atoms [Ha [x [rest [-> ->]]]]]|[pieces [_ ->]]].
    + inversion Ha as [|? ? [Hn Hx] _]; subst. destruct Hx as [|c x Hc Hx]; [contradiction|]. eexists c, _. split; [reflexivity|].
      intros Hs. destruct Hc as [Hc|[Hc|Hc]]; unfold letter, decimal_digit, separator in *; cbn in *; lia.
    + eexists 34, _. split; [reflexivity|]. unfold separator. cbn. lia.
  - destruct Hd as [labels [top [_ [_ [Ht [Hlen ->]]]]]]. destruct top as [|c top] using rev_ind; [cbn in Hlen; lia|]. clear IHtop.
    apply Forall_app in Ht. destruct Ht as [_ Ht]. inversion Ht as [|? ? Hc _]; subst. eexists c, _. split; [rewrite !app_assoc; reflexivity|].
    intros Hs. unfold letter, separator in *. cbn in *. lia.
Qed.

Lemma email_text_ends s : email_text true s ->
  (forall c r, s = c :: r -> ~ separator c) /\ (forall c r, s = r ++ [c] -> ~ separator c).
Proof.
  intros [-> | [l [Hl [x [rest [-> ->]]]]]]; [split; [discriminate|intros c [|]; discriminate]|].
  inversion Hl as [|? ? Hx Hrest]; subst. destruct (address_ends x Hx) as [[c0 [r0 [Hx0 Hc0]]] [c1 [r1 [Hx1 Hc1]]]]. split.
  - intros c r H. rewrite Hx0 in H. injection H as <- _. exact Hc0.
  - intros c r H. destruct rest as [|y rest] using rev_ind.
    + cbn in H. rewrite app_nil_r, Hx1 in H. apply app_inj_tail in H. destruct H as [_ <-]. exact Hc1.
    + clear IHrest. apply Forall_app in Hrest. destruct Hrest as [_ Hy]. inversion Hy as [|? ? Hy' _]; subst.
      destruct (address_ends y Hy') as [_ [c2 [r2 [-> Hc2]]]].
      rewrite flat_map_app in H. cbn [flat_map] in H. rewrite app_nil_r in H.
      change (44 :: r2 ++ [c2]) with ((44 :: r2) ++ [c2]) in H. rewrite !app_assoc in H. apply app_inj_tail in H.
      destruct H as [_ <-]. exact Hc2.
Qed.

(** What an Email field accepts is its own normal form. *)
Lemma email_settled E multiple s : lowers E ->
  let t := email_preprocess (e_ulower E) multiple false s in
  rmatch_dollar (email_pattern multiple false) t = true -> email_normal E multiple t t.
Proof.
  intros HE t Ht. apply email_normal_eq. symmetry.
  assert (Ha : trimmed s (strip is_separator s)) by (apply trimmed_strip; reflexivity).
  destruct Ha as [_ [_ [_ [_ [_ [H1 H2]]]]]]. destruct (lower_ends E _ HE H1 H2) as [H3 H4].
  assert (Hk := lower_kept E (strip is_separator s) HE).
  assert (Hstrip : forall u, (forall c r, u = c :: r -> ~ separator c) -> (forall c r, u = r ++ [c] -> ~ separator c) ->
            strip is_separator u = u).
  { intros u Hf Hl. symmetry. apply trimmed_strip. exists [], []. rewrite app_nil_r. repeat split; auto. }
  unfold t in *. unfold email_preprocess in *. set (b := lower (e_ulower E) (strip is_separator s)) in *. destruct multiple.
  - apply dollar_lang in Ht. assert (He : email_text true (sub_separators false b)).
    { destruct Ht as [Ht|[u [Hu _]]]; [apply email_lang, Ht|exfalso].
      assert (Hin : In 10 (sub_separators false b)) by (rewrite Hu; apply in_or_app; right; left; reflexivity).
      apply sub_in in Hin. destruct Hin as [Hin|[_ Hin]]; [discriminate|]. apply Hin. left. reflexivity. }
    destruct (email_text_ends _ He) as [H5 H6]. rewrite (Hstrip _ H5 H6). rewrite kept_lower; [apply sub_idem|].
    rewrite Forall_forall. intros d Hd. apply sub_in in Hd. destruct Hd as [-> |[Hd _]]; [reflexivity|].
    rewrite Forall_forall in Hk. apply Hk, Hd.
  - rewrite (Hstrip _ H3 H4). apply kept_lower, Hk.
Qed.
