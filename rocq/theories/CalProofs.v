(** * Dates, times and datetimes (C09 to C12). *)
(* @imports Spec Demo CalSpec CalFacts *)
From Coq Require Import ZifyBool ZifyN ZifyNat.
From Verif Require Import PyBaseFacts NumFacts ProcessFacts Spec Demo ScalarProofs CalSpec CalFacts CalText.
Open Scope Z_scope.
Ltac Zify.zify_post_hook ::= Z.div_mod_to_equations.

(** ** C09 *)

(** The bound check when the order is known for existing values only. *)
Lemma bounds_on {A} (ok : A -> Prop) (lt : A -> A -> bool) (le : A -> A -> Prop) anc mn mx x r :
  (forall a b, ok a -> ok b -> lt a b = false <-> le b a) ->
  ok x -> (forall m, mn = Some m -> ok m) -> (forall m, mx = Some m -> ok m) ->
  (at_least le mn x /\ at_most le mx x /\ check_bounds lt anc mn mx x r = Ok r)
  \/ ((exists m, mn = Some m /\ ~ le m x) /\ check_bounds lt anc mn mx x r = verr anc $"minimum")
  \/ (at_least le mn x /\ (exists m, mx = Some m /\ ~ le x m)
      /\ check_bounds lt anc mn mx x r = verr anc $"maximum").
Proof.
  intros Hlt Hx Hmn Hmx. unfold check_bounds, below, above, at_least, at_most.
  destruct mn as [m|].
  - specialize (Hmn m eq_refl). destruct (lt x m) eqn:H1.
    + right. left. split; [|reflexivity]. exists m. split; [reflexivity|].
      rewrite <- (Hlt _ _ Hx Hmn). congruence.
    + apply Hlt in H1; [|assumption..]. destruct mx as [m'|].
      * specialize (Hmx m' eq_refl). destruct (lt m' x) eqn:H2.
        -- right. right. split; [intros ? [= <-]; exact H1|]. split; [|reflexivity]. exists m'. split; [reflexivity|].
           rewrite <- (Hlt _ _ Hmx Hx). congruence.
        -- apply Hlt in H2; [|assumption..]. left. split; [intros ? [= <-]; exact H1|]. split; [|reflexivity]. intros ? [= <-]. exact H2.
      * left. split; [intros ? [= <-]; exact H1|]. split; [discriminate|reflexivity].
  - destruct mx as [m'|].
    + specialize (Hmx m' eq_refl). destruct (lt m' x) eqn:H2.
      * right. right. split; [discriminate|]. split; [|reflexivity]. exists m'. split; [reflexivity|].
        rewrite <- (Hlt _ _ Hmx Hx). congruence.
      * apply Hlt in H2; [|assumption..]. left. split; [discriminate|]. split; [|reflexivity]. intros ? [= <-]. exact H2.
    + left. split; [discriminate|]. split; [discriminate|reflexivity].
Qed.

Lemma day_order a b : existing_day a -> existing_day b -> date_ltb a b = false <-> day_le b a.
Proof. intros Ha Hb. rewrite day_le_spec by assumption. reflexivity. Qed.

(** @prop C09 Acceptance of native dates, exactly: within the bounds in the order of the calendar (one day
    after another); the value is unchanged. *)
Lemma date_native_exact :
  forall E desc recon n p mn mx partial ph anc d,
    plain p -> existing_day d ->
    (forall m, mn = Some m -> existing_day m) -> (forall m, mx = Some m -> existing_day m) ->
    let out := process_gen E desc recon n (Fld p (KDate mn mx)) partial ph false anc (VDate d) in
    let path := path_of p (KDate mn mx) anc in
    (at_least day_le mn d -> at_most day_le mx d -> out = Ok (VDate d))
    /\ (forall m, mn = Some m -> ~ day_le m d -> out = fails path $"minimum")
    /\ (forall m, mx = Some m -> ~ day_le d m -> at_least day_le mn d -> out = fails path $"maximum").
Proof.
  intros E desc recon n p mn mx partial ph anc d Hp Hd Hmn Hmx out path.
  assert (Hout : out = check_bounds date_ltb path mn mx d (VDate d)).
  { unfold out. rewrite process_native; try assumption; try reflexivity; [|discriminate|intros [_ H]; discriminate].
    cbn [validate_value]. fold path. destruct (check_bounds _ _ _ _ _ _); [|reflexivity]. reflexivity. }
  rewrite Hout. clear Hout out.
  destruct (bounds_on existing_day date_ltb day_le path mn mx d (VDate d) day_order Hd Hmn Hmx)
    as [[H1 [H2 ->]]|[[[m [Hm H1]] ->]|[H1 [[m [Hm H2]] ->]]]].
  - split; [reflexivity|]. split.
    + intros m Hm H. exfalso. apply H, H1, Hm.
    + intros m Hm H _. exfalso. apply H, H2, Hm.
  - split; [|split].
    + intros H. exfalso. apply H1, H, Hm.
    + intros. reflexivity.
    + intros m' _ _ H. exfalso. apply H1, H, Hm.
  - split; [|split].
    + intros _ H. exfalso. apply H2, H, Hm.
    + intros m' Hm' H. exfalso. apply H, H1, Hm'.
    + reflexivity.
Qed.

(** @example
Example C09_native_example :
  let f := Fld p0 (KDate (Some (Date 2012 2 28)) (Some (Date 2012 3 1))) in
  existing_day (Date 2012 2 29) /\ day_le (Date 2012 2 28) (Date 2012 2 29)
  /\ run0 f Inbound false (VDate (Date 2012 2 29)) = Ok (VDate (Date 2012 2 29))
  /\ run0 f Inbound false (VDate (Date 2012 2 27)) = fails [$"(date)"] $"minimum".
Proof.
  split; [split; [cbn; lia|]; exists 29; split; [apply ml_leap|cbn; lia]|].
  { split; [exists 503; reflexivity|]. left. intros [k H]. cbn in H. lia. }
  split; [exists 1%nat; econstructor; [eapply da_same_month with (n := 29)|constructor]|].
  { apply ml_leap. split; [exists 503; reflexivity|]. left. intros [k H]. cbn in H. lia. }
  { cbn. lia. }
  split; reflexivity.
Qed.
@end *)

(** @prop C09 The text of a date is YYYY-MM-DD and is read back as the same date (years of four digits;
    all years when the C library pads them). *)
Lemma date_round_trip :
  forall E desc recon n p mn mx partial anc d,
    plain p -> existing_day d ->
    (forall m, mn = Some m -> existing_day m) -> (forall m, mx = Some m -> existing_day m) ->
    at_least day_le mn d -> at_most day_le mx d ->
    e_pad E = true \/ 1000 <= d_year d ->
    exists s,
      process_gen E desc recon n (Fld p (KDate mn mx)) partial Outbound true anc (VDate d) = Ok (VStr s)
      /\ iso_date s d
      /\ process_gen E desc recon n (Fld p (KDate mn mx)) partial Inbound true anc (VStr s) = Ok (VDate d).
Proof.
  intros E desc recon n p mn mx partial anc d Hp Hd Hmn Hmx H1 H2 Hpad.
  exists (date_text (e_pad E) d). 
  assert (Hb : forall path, check_bounds date_ltb path mn mx d (VDate d) = Ok (VDate d)).
  { intros path. destruct (bounds_on existing_day date_ltb day_le path mn mx d (VDate d) day_order Hd Hmn Hmx)
      as [[_ [_ H]]|[[[m [Hm H]] _]|[_ [[m [Hm H]] _]]]]; [exact H| |]; exfalso; auto. }
  split; [|split].
  - rewrite process_native; try assumption; try reflexivity; [|discriminate|intros [H _]; discriminate].
    cbn [validate_value]. rewrite Hb. reflexivity.
  - apply date_text_iso; assumption.
  - rewrite process_inbound; try assumption; try reflexivity; [|discriminate].
    cbn [unserialize_value]. rewrite parse_date_text by assumption. cbn [or_invalid bind validate_value]. apply Hb.
Qed.

(** @example
Example C09_example :
  exists s, run0 (Fld p0 (KDate None None)) Outbound true (VDate (Date 2012 2 29)) = Ok (VStr s)
            /\ s = $"2012-02-29"
            /\ run0 (Fld p0 (KDate None None)) Inbound true (VStr s) = Ok (VDate (Date 2012 2 29)).
Proof. eexists. split; [reflexivity|]. split; reflexivity. Qed.
@end *)

(** @prop C09 Every text YYYY-MM-DD of an existing day within the bounds is accepted. *)
Lemma date_text_accepted :
  forall E desc recon n p mn mx partial anc s d,
    plain p -> existing_day d -> iso_date s d ->
    (forall m, mn = Some m -> existing_day m) -> (forall m, mx = Some m -> existing_day m) ->
    at_least day_le mn d -> at_most day_le mx d ->
    process_gen E desc recon n (Fld p (KDate mn mx)) partial Inbound true anc (VStr s) = Ok (VDate d).
Proof.
  intros E desc recon n p mn mx partial anc s d Hp Hd Hs Hmn Hmx H1 H2. apply iso_date_text in Hs. subst s.
  rewrite process_inbound; try assumption; try reflexivity; [|discriminate].
  cbn [unserialize_value]. rewrite parse_date_text by auto. cbn [or_invalid bind validate_value].
  destruct (bounds_on existing_day date_ltb day_le (path_of p (KDate mn mx) anc) mn mx d (VDate d) day_order Hd Hmn Hmx)
      as [[_ [_ H]]|[[[m [Hm H]] _]|[_ [[m [Hm H]] _]]]]; [exact H| |]; exfalso; auto.
Qed.

(** @example
Example C09_text_example :
  iso_date $"0004-02-29" (Date 4 2 29)
  /\ run0 (Fld p0 (KDate None None)) Inbound true (VStr $"0004-02-29") = Ok (VDate (Date 4 2 29)).
Proof.
  split; [|reflexivity]. exists $"0004", $"02", $"29". split; [reflexivity|]. split; [|split].
  - exists [0; 0; 0; 4]%N. repeat split; repeat constructor.
  - exists [0; 2]%N. repeat split; repeat constructor.
  - exists [2; 9]%N. repeat split; repeat constructor.
Qed.
@end *)

(** @prop C09 Unserialization accepts a text only when it denotes an existing day, within the bounds; any
    other text is an InvalidTypeError. *)
Lemma date_text_denotes :
  forall E desc recon n p mn mx partial anc s,
    plain p ->
    (forall m, mn = Some m -> existing_day m) -> (forall m, mx = Some m -> existing_day m) ->
    let out := process_gen E desc recon n (Fld p (KDate mn mx)) partial Inbound true anc (VStr s) in
    (forall r, out = Ok r ->
       exists d, r = VDate d /\ existing_day d /\ denotes_day E s d /\ at_least day_le mn d /\ at_most day_le mx d)
    /\ ((forall d, existing_day d -> ~ denotes_day E s d) -> out = invalid_type (path_of p (KDate mn mx) anc)).
Proof.
  intros E desc recon n p mn mx partial anc s Hp Hmn Hmx out.
  assert (Hout : out = bind (or_invalid (path_of p (KDate mn mx) anc) VDate (parse_date (e_udigit E) s))
                            (validate_value E (KDate mn mx : kind) (path_of p (KDate mn mx) anc))).
  { unfold out. rewrite process_inbound; try assumption; try reflexivity. discriminate. }
  rewrite Hout. clear Hout out. destruct (parse_date (e_udigit E) s) as [d|] eqn:Hs; cbn [or_invalid bind].
  - apply parse_date_sound in Hs. destruct Hs as [He Hd]. split.
    + intros r Hr. cbn [validate_value] in Hr.
      destruct (bounds_on existing_day date_ltb day_le (path_of p (KDate mn mx) anc) mn mx d (VDate d) day_order He Hmn Hmx)
        as [[H1 [H2 H]]|[[_ H]|[_ [_ H]]]]; rewrite H in Hr; try discriminate.
      injection Hr as <-. exists d. auto.
    + intros H. exfalso. exact (H d He Hd).
  - split; [discriminate|]. reflexivity.
Qed.

(** @example
Example C09_rejected_example :
  run0 (Fld p0 (KDate None None)) Inbound true (VStr $"2011-02-29") = invalid_type [$"(date)"]
  /\ run0 (Fld p0 (KDate None None)) Inbound true (VStr $"2011-02-28 ") = invalid_type [$"(date)"]
  /\ run0 (Fld p0 (KDate None None)) Inbound true (VStr $"2011-2- 8") = Ok (VDate (Date 2011 2 8)).
Proof. repeat split; reflexivity. Qed.
@end *)

(** ** C10 *)

Definition time_le (a b : tod) : Prop := elapsed a <= elapsed b.

Lemma time_order a b : existing_time a -> existing_time b -> tod_ltb a b = false <-> time_le b a.
Proof.
  unfold existing_time, tod_ltb, time_le, elapsed.
  destruct a as [h m s u], b as [h' m' s' u']. cbn [t_hour t_min t_sec t_us]. intros Ha Hb.
  destruct (Z.ltb_spec h h'), (Z.eqb_spec h h'), (Z.ltb_spec m m'), (Z.eqb_spec m m'), (Z.ltb_spec s s'),
    (Z.eqb_spec s s'), (Z.ltb_spec u u'); cbn [andb orb]; split; intros; try discriminate; try reflexivity; lia.
Qed.

(** @prop C10 Acceptance of native times, exactly: within the bounds, by the time elapsed since midnight. *)
Lemma time_native_exact :
  forall E desc recon n p mn mx partial ph anc t,
    plain p -> existing_time t ->
    (forall m, mn = Some m -> existing_time m) -> (forall m, mx = Some m -> existing_time m) ->
    let le a b := elapsed a <= elapsed b in
    let out := process_gen E desc recon n (Fld p (KTime mn mx)) partial ph false anc (VTime t) in
    let path := path_of p (KTime mn mx) anc in
    (at_least le mn t -> at_most le mx t -> out = Ok (VTime t))
    /\ (forall m, mn = Some m -> elapsed t < elapsed m -> out = fails path $"minimum")
    /\ (forall m, mx = Some m -> elapsed m < elapsed t -> at_least le mn t -> out = fails path $"maximum").
Proof.
  intros E desc recon n p mn mx partial ph anc d Hp Hd Hmn Hmx le out path.
  assert (Hout : out = check_bounds tod_ltb path mn mx d (VTime d)).
  { unfold out. rewrite process_native; try assumption; try reflexivity; [|discriminate|intros [_ H]; discriminate].
    cbn [validate_value]. fold path. destruct (check_bounds _ _ _ _ _ _); [|reflexivity]. reflexivity. }
  rewrite Hout. clear Hout out.
  destruct (bounds_on existing_time tod_ltb time_le path mn mx d (VTime d) time_order Hd Hmn Hmx)
    as [[H1 [H2 ->]]|[[[m [Hm H1]] ->]|[H1 [[m [Hm H2]] ->]]]]; unfold time_le in *.
  - split; [reflexivity|]. split.
    + intros m Hm H. specialize (H1 m Hm). cbv beta in H1. lia.
    + intros m Hm H _. specialize (H2 m Hm). cbv beta in H2. lia.
  - split; [|split].
    + intros H. exfalso. apply H1, H, Hm.
    + intros. reflexivity.
    + intros m' _ _ H. exfalso. apply H1, H, Hm.
  - split; [|split].
    + intros _ H. exfalso. apply H2, H, Hm.
    + intros m' Hm' H. specialize (H1 m' Hm'). cbv beta in H1. lia.
    + reflexivity.
Qed.

(** @example
Example C10_native_example :
  let f := Fld p0 (KTime (Some (Tod 9 30 0 0)) (Some (Tod 17 0 0 0))) in
  run0 f Inbound false (VTime (Tod 17 0 0 0)) = Ok (VTime (Tod 17 0 0 0))
  /\ run0 f Inbound false (VTime (Tod 17 0 0 1)) = fails [$"(time)"] $"maximum"
  /\ run0 f Inbound false (VTime (Tod 9 29 59 0)) = fails [$"(time)"] $"minimum".
Proof. repeat split; reflexivity. Qed.
@end *)

(** @prop C10 The text of a time is HH:MM:SS and is read back as the same time without microseconds
    (rejected only if dropping them takes it below the minimum). *)
Lemma time_round_trip :
  forall E desc recon n p mn mx partial anc t,
    plain p -> existing_time t ->
    (forall m, mn = Some m -> existing_time m) -> (forall m, mx = Some m -> existing_time m) ->
    let le a b := elapsed a <= elapsed b in
    let t' := Tod (t_hour t) (t_min t) (t_sec t) 0 in
    at_least le mn t' -> at_most le mx t ->
    exists s,
      process_gen E desc recon n (Fld p (KTime mn mx)) partial Outbound true anc (VTime t) = Ok (VStr s)
      /\ iso_time s t
      /\ process_gen E desc recon n (Fld p (KTime mn mx)) partial Inbound true anc (VStr s) = Ok (VTime t').
Proof.
  intros E desc recon n p mn mx partial anc t Hp Ht Hmn Hmx le t' H1 H2.
  assert (Ht' : existing_time t') by (destruct Ht as [? [? [? ?]]]; repeat split; cbn; lia).
  assert (Hle : elapsed t' <= elapsed t) by (destruct Ht as [? [? [? ?]]]; unfold elapsed, t'; cbn; lia).
  assert (Hb : forall x path, existing_time x -> elapsed t' <= elapsed x <= elapsed t ->
                 check_bounds tod_ltb path mn mx x (VTime x) = Ok (VTime x)).
  { intros x path Hx Hr. destruct (bounds_on existing_time tod_ltb time_le path mn mx x (VTime x) time_order Hx Hmn Hmx)
      as [[_ [_ H]]|[[[m [Hm H]] _]|[_ [[m [Hm H]] _]]]]; [exact H| |]; exfalso; unfold time_le, le in *;
      [specialize (H1 m Hm); cbv beta in H1|specialize (H2 m Hm); cbv beta in H2]; lia. }
  exists (tod_text t). split; [|split].
  - rewrite process_native; try assumption; try reflexivity; [|discriminate|intros [H _]; discriminate].
    cbn [validate_value]. rewrite Hb; [reflexivity|exact Ht|lia].
  - apply tod_text_iso; assumption.
  - rewrite process_inbound; try assumption; try reflexivity; [|discriminate].
    cbn [unserialize_value]. rewrite parse_tod_text by assumption. cbn [or_invalid bind validate_value].
    apply Hb; [exact Ht'|lia].
Qed.

(** @example
Example C10_example :
  run0 (Fld p0 (KTime None None)) Outbound true (VTime (Tod 23 59 59 999999)) = Ok (VStr $"23:59:59")
  /\ run0 (Fld p0 (KTime None None)) Inbound true (VStr $"23:59:59") = Ok (VTime (Tod 23 59 59 0)).
Proof. split; reflexivity. Qed.
@end *)

(** @prop C10 Unserialization accepts a text only when it denotes an existing time of day, within the
    bounds; any other text is an InvalidTypeError. *)
Lemma time_text_denotes :
  forall E desc recon n p mn mx partial anc s,
    plain p ->
    (forall m, mn = Some m -> existing_time m) -> (forall m, mx = Some m -> existing_time m) ->
    let le a b := elapsed a <= elapsed b in
    let out := process_gen E desc recon n (Fld p (KTime mn mx)) partial Inbound true anc (VStr s) in
    (forall r, out = Ok r ->
       exists t, r = VTime t /\ existing_time t /\ denotes_time E s t /\ at_least le mn t /\ at_most le mx t)
    /\ ((forall t, existing_time t -> ~ denotes_time E s t) -> out = invalid_type (path_of p (KTime mn mx) anc)).
Proof.
  intros E desc recon n p mn mx partial anc s Hp Hmn Hmx le out.
  assert (Hout : out = bind (or_invalid (path_of p (KTime mn mx) anc) VTime (parse_tod (e_udigit E) s))
                            (validate_value E (KTime mn mx : kind) (path_of p (KTime mn mx) anc))).
  { unfold out. rewrite process_inbound; try assumption; try reflexivity. discriminate. }
  rewrite Hout. clear Hout out. destruct (parse_tod (e_udigit E) s) as [d|] eqn:Hs; cbn [or_invalid bind].
  - apply parse_tod_sound in Hs. destruct Hs as [He Hd]. split.
    + intros r Hr. cbn [validate_value] in Hr.
      destruct (bounds_on existing_time tod_ltb time_le (path_of p (KTime mn mx) anc) mn mx d (VTime d) time_order He Hmn Hmx)
        as [[H1 [H2 H]]|[[_ H]|[_ [_ H]]]]; rewrite H in Hr; try discriminate.
      injection Hr as <-. exists d. auto.
    + intros H. exfalso. exact (H d He Hd).
  - split; [discriminate|]. reflexivity.
Qed.

(** @example
Example C10_rejected_example :
  run0 (Fld p0 (KTime None None)) Inbound true (VStr $"24:00:00") = invalid_type [$"(time)"]
  /\ run0 (Fld p0 (KTime None None)) Inbound true (VStr $"23:59:60") = invalid_type [$"(time)"]
  /\ run0 (Fld p0 (KTime None None)) Inbound true (VStr $"7:5:9") = Ok (VTime (Tod 7 5 9 0)).
Proof. repeat split; reflexivity. Qed.
@end *)

(** ** C11 *)

Lemma wall_clock_spec dt w : existing dt -> wall_clock dt w <-> w = dt_secs dt * 1000000 + t_us (dt_time dt).
Proof.
  intros [Hd Ht]. assert (H1 : md_ok 1 1 1) by (split; cbn; lia).
  assert (Ho := ordinal_range _ Hd). pose proof Hd as Hd'. apply existing_day_spec in Hd'. destruct Hd' as [_ Hd'].
  unfold wall_clock, dt_secs, tod_secs, elapsed. split.
  - intros [n [Hn ->]]. apply later_ordinal in Hn; [|exact H1]. destruct Hn as [Hn _].
    change (ordinal (Date 1 1 1)) with 1 in Hn. lia.
  - intros ->. destruct (later_exists (Z.to_nat (ordinal (dt_date dt) - 1)) (Date 1 1 1) H1) as [c Hc].
    assert (Hl := later_ordinal _ _ _ Hc H1). change (ordinal (Date 1 1 1)) with 1 in Hl.
    assert (He : dt_date dt = c) by (apply ordinal_inj; [exact Hd'|apply Hl|lia]).
    exists (Z.to_nat (ordinal (dt_date dt) - 1)). rewrite He at 1. split; [|lia].
    rewrite <- He in *. exact Hc.
Qed.

Lemma offset_at_spec L w z o : offset_at L w z o <-> o = utcoffset L z w.
Proof.
  split.
  - intros [|m|H|H]; cbn [utcoffset]; [reflexivity|lia| |]; rewrite H; reflexivity.
  - intros ->. destruct z; cbn [utcoffset]; [constructor|rewrite Z.mul_comm; constructor|].
    destruct (lt_isdst L w) eqn:H; [apply off_dst, H|apply off_std, H].
Qed.

(** The instant in seconds as the model computes it. *)
Definition inst (L : localtz) (utc : bool) (dt : datetime) : Z :=
  dt_secs dt - utcoffset L (zone_of utc dt) (dt_secs dt).

Lemma instant_spec L utc dt i : existing dt ->
  instant L utc dt i <-> i = inst L utc dt * 1000000 + t_us (dt_time dt).
Proof.
  intros He. assert (Hus : 0 <= t_us (dt_time dt) <= 999999) by apply He. unfold instant, inst. split.
  - intros [w [o [Hw [Ho ->]]]]. apply wall_clock_spec in Hw; [|exact He]. apply offset_at_spec in Ho.
    replace (w / 1000000) with (dt_secs dt) in Ho by lia. lia.
  - intros ->. exists (dt_secs dt * 1000000 + t_us (dt_time dt)), (utcoffset L (zone_of utc dt) (dt_secs dt)).
    split; [apply wall_clock_spec; [exact He|reflexivity]|]. split; [|lia]. apply offset_at_spec. f_equal. lia.
Qed.

Lemma expressible_spec i : expressible i <-> 0 <= i < max_secs * 1000000.
Proof.
  split.
  - intros [dt [He Hw]]. apply wall_clock_spec in Hw; [|exact He]. pose proof (dt_secs_range _ He).
    assert (0 <= t_us (dt_time dt) <= 999999) by apply He. lia.
  - intros Hi. destruct (of_secs_some (i / 1000000) (i mod 1000000) None ltac:(lia)) as [dt Hdt].
    pose proof Hdt as Hs. apply of_secs_spec in Hs; [|lia]. destruct Hs as [_ [He [Hs [Hu _]]]].
    exists dt. split; [exact He|]. apply wall_clock_spec; [exact He|]. lia.
Qed.

Lemma dt_add_spec dt delta u : existing dt -> dt_add dt delta = Some u ->
  existing u /\ dt_secs u = dt_secs dt + delta /\ t_us (dt_time u) = t_us (dt_time dt) /\ dt_tz u = dt_tz dt.
Proof.
  intros He H. apply of_secs_spec in H; [|apply He]. tauto.
Qed.

Lemma dt_add_some dt delta : 0 <= dt_secs dt + delta < max_secs -> exists u, dt_add dt delta = Some u.
Proof. intros H. apply of_secs_some, H. Qed.

(** Conversion to UTC. *)
Lemma to_utc_spec L dt z u : existing dt -> astimezone L dt z TzUTC = Some u ->
  existing u /\ dt_secs u = dt_secs dt - utcoffset L z (dt_secs dt)
  /\ t_us (dt_time u) = t_us (dt_time dt) /\ dt_tz u = Some TzUTC.
Proof.
  intros He H. unfold astimezone in H. destruct (dt_add dt _) as [a|] eqn:Ha; [|discriminate].
  apply dt_add_spec in Ha; [|exact He]. destruct Ha as [Ea [Sa [Ua Za]]].
  unfold fromutc in H. cbn [utcoffset dstoffset] in H.
  assert (Ew : existing (with_tz a (Some TzUTC))) by exact Ea.
  destruct (dt_add (with_tz a (Some TzUTC)) (0 - 0)) as [b|] eqn:Hb; [|discriminate].
  apply dt_add_spec in Hb; [|exact Ew]. destruct Hb as [Eb [Sb [Ub Zb]]].
  apply dt_add_spec in H; [|exact Eb]. destruct H as [Eu [Su [Uu Zu]]].
  change (dt_secs (with_tz a (Some TzUTC))) with (dt_secs a) in Sb.
  change (t_us (dt_time (with_tz a (Some TzUTC)))) with (t_us (dt_time a)) in Ub.
  split; [exact Eu|]. split; [lia|]. split; [lia|]. rewrite Zu, Zb. reflexivity.
Qed.

Lemma to_utc_some L dt z : existing dt -> 0 <= dt_secs dt - utcoffset L z (dt_secs dt) < max_secs ->
  exists u, astimezone L dt z TzUTC = Some u.
Proof.
  intros He Hr. unfold astimezone.
  destruct (dt_add_some dt (- utcoffset L z (dt_secs dt)) ltac:(lia)) as [a Ha]. rewrite Ha.
  apply dt_add_spec in Ha; [|exact He]. destruct Ha as [Ea [Sa [Ua Za]]].
  unfold fromutc. cbn [utcoffset dstoffset].
  assert (Ew : existing (with_tz a (Some TzUTC))) by exact Ea.
  assert (Sw : dt_secs (with_tz a (Some TzUTC)) = dt_secs a) by reflexivity.
  destruct (dt_add_some (with_tz a (Some TzUTC)) (0 - 0) ltac:(lia)) as [b Hb]. rewrite Hb.
  apply dt_add_spec in Hb; [|exact Ew]. destruct Hb as [Eb [Sb _]]. apply dt_add_some. lia.
Qed.

(** Conversion to a local time without daylight saving. *)
Lemma to_local_spec L dt z u : lt_dst L = lt_std L -> existing dt -> astimezone L dt z TzLocal = Some u ->
  existing u /\ dt_secs u = dt_secs dt - utcoffset L z (dt_secs dt) + lt_std L
  /\ t_us (dt_time u) = t_us (dt_time dt) /\ dt_tz u = Some TzLocal.
Proof.
  intros HL He H. unfold astimezone in H. destruct (dt_add dt _) as [a|] eqn:Ha; [|discriminate].
  apply dt_add_spec in Ha; [|exact He]. destruct Ha as [Ea [Sa [Ua Za]]].
  unfold fromutc in H.
  assert (Hd : forall s, dstoffset L TzLocal s = 0) by (intros s; cbn; rewrite HL; destruct (lt_isdst L s); lia).
  assert (Ho : forall s, utcoffset L TzLocal s = lt_std L) by (intros s; cbn; rewrite HL; destruct (lt_isdst L s); reflexivity).
  rewrite Hd, Ho in H.
  assert (Ew : existing (with_tz a (Some TzLocal))) by exact Ea.
  destruct (dt_add (with_tz a (Some TzLocal)) (lt_std L - 0)) as [b|] eqn:Hb; [|discriminate]. rewrite Hd in H.
  apply dt_add_spec in Hb; [|exact Ew]. destruct Hb as [Eb [Sb [Ub Zb]]].
  apply dt_add_spec in H; [|exact Eb]. destruct H as [Eu [Su [Uu Zu]]].
  change (dt_secs (with_tz a (Some TzLocal))) with (dt_secs a) in Sb.
  change (t_us (dt_time (with_tz a (Some TzLocal)))) with (t_us (dt_time a)) in Ub.
  split; [exact Eu|]. split; [lia|]. split; [lia|]. rewrite Zu, Zb. reflexivity.
Qed.

Lemma tz_is_eq a b : tz_is a b = true -> a = b.
Proof. destruct a, b; try discriminate; reflexivity. Qed.

(** Normalisation keeps the instant. *)
Lemma normalize_spec E utc dt u : existing dt ->
  utc = true \/ dt_tz dt = None \/ dt_tz dt = Some TzLocal \/ lt_dst (e_local E) = lt_std (e_local E) ->
  dt_normalize E utc dt = Ok u ->
  existing u /\ dt_tz u = Some (if utc then TzUTC else TzLocal) /\ t_us (dt_time u) = t_us (dt_time dt)
  /\ inst (e_local E) utc u = inst (e_local E) utc dt.
Proof.
  intros He Hc H. unfold dt_normalize in H. unfold inst, zone_of.
  destruct (dt_tz dt) as [z|] eqn:Hz.
  - destruct (tz_is z (if utc then TzUTC else TzLocal)) eqn:Ht.
    + injection H as <-. apply tz_is_eq in Ht. subst z. rewrite Hz. auto.
    + destruct utc.
      * destruct (astimezone (e_local E) dt z TzUTC) as [r|] eqn:Ha; [|discriminate]. injection H as <-.
        apply to_utc_spec in Ha; [|exact He]. destruct Ha as [Er [Sr [Ur Zr]]]. rewrite Zr.
        split; [exact Er|]. split; [reflexivity|]. split; [exact Ur|]. cbn [utcoffset]. lia.
      * assert (HL : lt_dst (e_local E) = lt_std (e_local E)).
        { destruct Hc as [H1|[H1|[H1|H1]]]; try discriminate; [|exact H1]. injection H1 as ->. discriminate. }
        destruct (astimezone (e_local E) dt z TzLocal) as [r|] eqn:Ha; [|discriminate]. injection H as <-.
        apply to_local_spec in Ha; [|exact HL|exact He]. destruct Ha as [Er [Sr [Ur Zr]]]. rewrite Zr.
        split; [exact Er|]. split; [reflexivity|]. split; [exact Ur|].
        cbn [utcoffset]. rewrite HL. destruct (lt_isdst _ _); lia.
  - injection H as <-. cbn [dt_tz with_tz]. repeat split; try apply He; reflexivity.
Qed.

Lemma check_bounds_r_result {A} (lt : A -> A -> res bool) anc mn mx x r r' :
  check_bounds_r lt anc mn mx x r = Ok r' -> r' = r.
Proof.
  unfold check_bounds_r. intros H. apply bind_Ok in H. destruct H as [b [_ H]]. destruct b; [discriminate|].
  apply bind_Ok in H. destruct H as [c [_ H]]. destruct c; [discriminate|]. congruence.
Qed.

Lemma datetime_text_iso pad dt : existing dt -> pad = true \/ 1000 <= d_year (dt_date dt) ->
  iso_datetime (datetime_text pad dt) dt.
Proof.
  intros [Hd Ht] Hp. exists (date_text pad (dt_date dt)), (tod_text (dt_time dt)).
  split; [unfold datetime_text; reflexivity|]. split; [apply date_text_iso; assumption|apply tod_text_iso, Ht].
Qed.

Lemma year_of_secs dt : existing dt -> (ordinal (Date 1000 1 1) - 1) * 86400 <= dt_secs dt -> 1000 <= d_year (dt_date dt).
Proof.
  intros He H. destruct (Z.le_gt_cases 1000 (d_year (dt_date dt))) as [|Hlt]; [assumption|]. exfalso.
  destruct He as [Hd Ht]. apply tod_secs_range in Ht. apply existing_day_spec in Hd. destruct Hd as [_ Hd].
  assert (Hl : date_ltb (dt_date dt) (Date 1000 1 1) = true) by (unfold date_ltb; cbn [d_year]; lia).
  apply date_ltb_ordinal in Hl; [|exact Hd|split; cbn; lia].
  unfold dt_secs in H. lia.
Qed.

Lemma outbound_text E desc recon n p mn mx utc partial anc dt r :
  plain p -> existing dt ->
  utc = true \/ dt_tz dt = None \/ dt_tz dt = Some TzLocal \/ lt_dst (e_local E) = lt_std (e_local E) ->
  process_gen E desc recon n (Fld p (KDateTime mn mx utc)) partial Outbound true anc (VDateTime dt) = Ok r ->
  exists u, r = VStr (datetime_text (e_pad E) u) /\ existing u /\ dt_tz u = Some TzUTC
            /\ dt_secs u = inst (e_local E) utc dt /\ t_us (dt_time u) = t_us (dt_time dt).
Proof.
  intros Hp He Hc H. rewrite process_native in H; try assumption; try reflexivity; [|discriminate|intros [H' _]; discriminate].
  apply bind_Ok in H. destruct H as [v [Hv H]]. cbn [validate_value] in Hv. apply bind_Ok in Hv.
  destruct Hv as [w [Hw Hv]]. apply check_bounds_r_result in Hv. subst v.
  apply normalize_spec in Hw; [|exact He|exact Hc]. destruct Hw as [Ew [Zw [Uw Iw]]].
  unfold serial in H. cbn [andb phase_eqb] in H. cbn [serialize_value] in H. rewrite Zw in H.
  destruct utc; cbn [tz_is] in H.
  - injection H as <-. exists w. split; [reflexivity|]. split; [exact Ew|]. split; [exact Zw|]. split; [|exact Uw].
    rewrite <- Iw. unfold inst, zone_of. rewrite Zw. cbn [utcoffset]. lia.
  - destruct (astimezone (e_local E) w TzLocal TzUTC) as [u|] eqn:Hu; [|discriminate]. injection H as <-.
    apply to_utc_spec in Hu; [|exact Ew]. destruct Hu as [Eu [Su [Uu Zu]]].
    exists u. split; [reflexivity|]. split; [exact Eu|]. split; [exact Zu|]. split; [|lia].
    rewrite <- Iw. unfold inst, zone_of. rewrite Zw. exact Su.
Qed.

(** @prop C11 Whenever a datetime (naive, UTC, or of any fixed offset or local zone) is serialized by a field,
    the text is read by a UTC field as the same instant, with the microseconds dropped.  A naive datetime
    is taken in the zone of the field.  For a field in local time a value of another zone is covered
    only when the local zone has no daylight saving time; years before 1000 need a C library that
    pads [%Y]. *)
Lemma datetime_instants_partial :
  forall E desc recon n p mn mx utc partial anc dt r i,
    plain p -> existing dt -> instant (e_local E) utc dt i ->
    utc = true \/ dt_tz dt = None \/ dt_tz dt = Some TzLocal \/ lt_dst (e_local E) = lt_std (e_local E) ->
    e_pad E = true \/ (forall j, wall_clock (DateTime (Date 1000 1 1) (Tod 0 0 0 0) None) j -> j <= i) ->
    process_gen E desc recon n (Fld p (KDateTime mn mx utc)) partial Outbound true anc (VDateTime dt) = Ok r ->
    exists s u,
      r = VStr s /\ iso_datetime s u /\ existing u /\ dt_tz u = Some TzUTC /\ t_us (dt_time u) = 0
      /\ instant (e_local E) true u (i / 1000000 * 1000000)
      /\ forall n' q partial' anc', plain q ->
           process_gen E desc recon n' (Fld q (KDateTime None None true)) partial' Inbound true anc' r
           = Ok (VDateTime u).
Proof.
  intros E desc recon n p mn mx utc partial anc dt r i Hp He Hi Hc Hy H.
  apply outbound_text in H; [|assumption..]. destruct H as [w [-> [Ew [Zw [Sw Uw]]]]].
  assert (Hus : 0 <= t_us (dt_time dt) <= 999999) by apply He.
  apply instant_spec in Hi; [|exact He].
  set (u := DateTime (dt_date w) (Tod (t_hour (dt_time w)) (t_min (dt_time w)) (t_sec (dt_time w)) 0) (Some TzUTC)).
  assert (Eu : existing u).
  { destruct Ew as [Hd [? [? [? ?]]]]. split; [exact Hd|]. repeat split; cbn; lia. }
  assert (Hpad : e_pad E = true \/ 1000 <= d_year (dt_date w)).
  { destruct Hy as [Hy|Hy]; [auto|]. right. apply year_of_secs; [exact Ew|].
    specialize (Hy ((ordinal (Date 1000 1 1) - 1) * 86400 * 1000000)).
    assert (Hw : wall_clock (DateTime (Date 1000 1 1) (Tod 0 0 0 0) None) ((ordinal (Date 1000 1 1) - 1) * 86400 * 1000000)).
    { apply wall_clock_spec.
      - split; [apply existing_day_spec; split; [cbn; lia|split; cbn; lia]|repeat split; cbn; lia].
      - unfold dt_secs, tod_secs. cbn [dt_date dt_time t_hour t_min t_sec t_us]. lia. }
    specialize (Hy Hw). lia. }
  exists (datetime_text (e_pad E) w), u.
  split; [reflexivity|]. split.
  { destruct (datetime_text_iso (e_pad E) w Ew Hpad) as [a [b [-> [Ha Hb]]]]. exists a, b. auto. }
  split; [exact Eu|]. split; [reflexivity|]. split; [reflexivity|]. split.
  - apply instant_spec; [exact Eu|]. unfold inst, zone_of. cbn [dt_tz u utcoffset dt_time t_us].
    change (dt_secs u) with (dt_secs w). lia.
  - intros n' q partial' anc' Hq. rewrite process_inbound; try assumption; try reflexivity; [|discriminate].
    cbn [unserialize_value]. rewrite parse_datetime_text by assumption. reflexivity.
Qed.

(** @example
(* 23:30 at UTC-5 is 04:30 of the next day. *)
Example C11_example :
  let dt := DateTime (Date 2011 12 31) (Tod 23 30 7 250000) (Some (TzFixed (-300))) in
  let f := Fld p0 (KDateTime None None true) in
  existing dt
  /\ run0 f Outbound true (VDateTime dt) = Ok (VStr $"2012-01-01T04:30:07Z")
  /\ run0 f Inbound true (VStr $"2012-01-01T04:30:07Z")
     = Ok (VDateTime (DateTime (Date 2012 1 1) (Tod 4 30 7 0) (Some TzUTC)))
  /\ run0 (Fld p0 (KDateTime None None false)) Outbound true (VDateTime (with_tz dt None))
     = Ok (VStr $"2011-12-31T22:30:07Z").
Proof.
  split; [|repeat split; reflexivity].
  split; [split; [cbn; lia|]; exists 31; split; [apply ml_long; cbn; auto 10|cbn; lia]|repeat split; cbn; lia].
Qed.
@end *)

(** @prop C11 A UTC field without bounds does serialize every datetime whose instant can be expressed in
    UTC. *)
Lemma datetime_serializes :
  forall E desc recon n p partial anc dt i,
    plain p -> existing dt -> instant (e_local E) true dt i -> expressible i ->
    exists s, process_gen E desc recon n (Fld p (KDateTime None None true)) partial Outbound true anc (VDateTime dt)
              = Ok (VStr s).
Proof.
  intros E desc recon n p partial anc dt i Hp He Hi Hx. apply instant_spec in Hi; [|exact He].
  apply expressible_spec in Hx. assert (Hus : 0 <= t_us (dt_time dt) <= 999999) by apply He.
  rewrite process_native; try assumption; try reflexivity; [|discriminate|intros [H' _]; discriminate].
  cbn [validate_value]. unfold dt_normalize, inst, zone_of in *. destruct (dt_tz dt) as [z|] eqn:Hz.
  - destruct (tz_is z TzUTC) eqn:Ht.
    + cbn [bind check_bounds_r]. unfold serial. cbn. rewrite Hz, Ht. eauto.
    + destruct (to_utc_some (e_local E) dt z He ltac:(lia)) as [u Hu]. rewrite Hu. cbn [bind check_bounds_r].
      apply to_utc_spec in Hu; [|exact He]. destruct Hu as [_ [_ [_ Zu]]]. unfold serial. cbn. rewrite Zu. cbn. eauto.
  - cbn. eauto.
Qed.

(** @example
Example C11_serializes_example :
  let dt := DateTime (Date 1 1 1) (Tod 0 0 0 5) (Some (TzFixed 0)) in
  run0 (Fld p0 (KDateTime None None true)) Outbound true (VDateTime dt) = Ok (VStr $"0001-01-01T00:00:00Z")
  /\ run0 (Fld p0 (KDateTime None None true)) Outbound true
       (VDateTime (DateTime (Date 1 1 1) (Tod 0 0 0 5) (Some (TzFixed 1)))) = Raise (XPy OverflowError).
Proof. split; reflexivity. Qed.
@end *)

(** @prop C11 With daylight saving time the claim fails for local fields: in the hour after the end of
    summer time (here, at 2000 hours of the first year) a UTC value is shifted by an hour. *)
Lemma datetime_instants_refuted :
  exists E desc recon n dt s u i,
    existing dt /\ dt_tz dt = Some TzUTC /\ instant (e_local E) false dt i
    /\ process_gen E desc recon n (Fld p0 (KDateTime None None false)) false Outbound true [] (VDateTime dt) = Ok (VStr s)
    /\ process_gen E desc recon n (Fld p0 (KDateTime None None true)) false Inbound true [] (VStr s) = Ok (VDateTime u)
    /\ instant (e_local E) true u (i + 3600 * 1000000).
Proof.
  set (L := {| lt_std := 0; lt_dst := 3600; lt_isdst := fun w => w <? 7200000 |}).
  set (dt := DateTime (Date 1 3 25) (Tod 7 10 0 0) (Some TzUTC)).
  set (u := DateTime (Date 1 3 25) (Tod 8 10 0 0) (Some TzUTC)).
  exists (with_local env0 L), nodesc, norecon, O, dt, $"0001-03-25T08:10:00Z", u, ((83 * 86400 + 7 * 3600 + 600) * 1000000).
  assert (He : forall h, 0 <= h <= 23 -> existing (DateTime (Date 1 3 25) (Tod h 10 0 0) (Some TzUTC))).
  { intros h Hh. split; [apply existing_day_spec; split; [cbn; lia|split; cbn; lia]|repeat split; cbn; lia]. }
  split; [apply He; lia|]. split; [reflexivity|].
  split; [apply instant_spec; [apply He; lia|reflexivity]|].
  split; [vm_compute; reflexivity|]. split; [vm_compute; reflexivity|]. apply instant_spec; [apply He; lia|reflexivity].
Qed.

(** @prop C11 Unserialization accepts a text only when it denotes an existing wall clock reading in UTC. *)
Lemma datetime_text_denotes :
  forall E desc recon n p partial anc s,
    plain p ->
    let out := process_gen E desc recon n (Fld p (KDateTime None None true)) partial Inbound true anc (VStr s) in
    (forall r, out = Ok r -> exists dt, r = VDateTime dt /\ existing dt /\ denotes_datetime E s dt)
    /\ ((forall dt, existing dt -> ~ denotes_datetime E s dt) ->
        out = invalid_type (path_of p (KDateTime None None true) anc)).
Proof.
  intros E desc recon n p partial anc s Hp out.
  assert (Hout : out = bind (or_invalid (path_of p (KDateTime None None true) anc) VDateTime (parse_datetime (e_udigit E) s))
                            (validate_value E (KDateTime None None true : kind) (path_of p (KDateTime None None true) anc))).
  { unfold out. rewrite process_inbound; try assumption; try reflexivity. discriminate. }
  rewrite Hout. clear Hout out. destruct (parse_datetime (e_udigit E) s) as [d|] eqn:Hs; cbn [or_invalid bind].
  - apply parse_datetime_sound in Hs. destruct Hs as [He [Hz [a [sep [b [z [-> [Ha [Hb [H1 H2]]]]]]]]]].
    assert (Hd : denotes_datetime E (a ++ [sep] ++ b ++ [z]) d).
    { exists a, sep, b, z. auto 10. }
    split; [|intros H; exfalso; exact (H d He Hd)].
    intros r Hr. cbn [validate_value] in Hr. unfold dt_normalize in Hr. rewrite Hz in Hr. cbn in Hr. injection Hr as <-.
    exists d. auto.
  - split; [discriminate|]. reflexivity.
Qed.

(** @example
Example C11_rejected_example :
  run0 (Fld p0 (KDateTime None None true)) Inbound true (VStr $"2011-02-28T24:00:00Z") = invalid_type [$"(datetime)"]
  /\ run0 (Fld p0 (KDateTime None None true)) Inbound true (VStr $"2011-02-28t1:2:3z")
     = Ok (VDateTime (DateTime (Date 2011 2 28) (Tod 1 2 3 0) (Some TzUTC))).
Proof. split; reflexivity. Qed.
@end *)

(** ** C12 *)

Definition micros (dt : datetime) : Z := dt_secs dt * 1000000 + t_us (dt_time dt).

Lemma wall_ltb_spec a b : existing a -> existing b -> wall_ltb a b = (micros a <? micros b).
Proof.
  intros [Da Ta] [Db Tb]. unfold wall_ltb, micros, dt_secs.
  pose proof Da as Da'. pose proof Db as Db'. apply existing_day_spec in Da'. apply existing_day_spec in Db'.
  pose proof (date_ltb_iff _ _ (proj2 Da') (proj2 Db')) as H1.
  assert (H2 : date_eqb (dt_date a) (dt_date b) = true <-> ordinal (dt_date a) = ordinal (dt_date b)).
  { split.
    - unfold date_eqb. intros H. f_equal. destruct (dt_date a), (dt_date b). cbn in H. f_equal; lia.
    - intros H. apply ordinal_inj in H; [|apply Da'|apply Db']. rewrite H. unfold date_eqb. rewrite !Z.eqb_refl. reflexivity. }
  pose proof (time_order _ _ Ta Tb) as H3. unfold time_le, elapsed in H3.
  assert (Ra := tod_secs_range _ Ta). assert (Rb := tod_secs_range _ Tb).
  assert (Ua : 0 <= t_us (dt_time a) <= 999999) by apply Ta.
  assert (Ub : 0 <= t_us (dt_time b) <= 999999) by apply Tb.
  assert (Ea : (t_hour (dt_time a) * 3600 + t_min (dt_time a) * 60 + t_sec (dt_time a)) = tod_secs (dt_time a)) by (unfold tod_secs; lia).
  assert (Eb : (t_hour (dt_time b) * 3600 + t_min (dt_time b) * 60 + t_sec (dt_time b)) = tod_secs (dt_time b)) by (unfold tod_secs; lia).
  destruct (date_ltb _ _), (date_eqb _ _), (tod_ltb _ _); cbn [andb orb]; symmetry; lia.
Qed.

Definition moment (L : localtz) (utc : bool) (dt : datetime) : Z := inst L utc dt * 1000000 + t_us (dt_time dt).

Lemma no_later_spec L utc a b : existing a -> existing b -> no_later L utc a b <-> moment L utc a <= moment L utc b.
Proof.
  intros Ha Hb. unfold no_later. split.
  - intros H. apply H; apply instant_spec; auto.
  - intros H i j Hi Hj. apply instant_spec in Hi; [|exact Ha]. apply instant_spec in Hj; [|exact Hb].
    unfold moment in H. lia.
Qed.

Lemma no_later_wall_spec a b : existing a -> existing b -> no_later_wall a b <-> micros a <= micros b.
Proof.
  intros Ha Hb. unfold no_later_wall. split.
  - intros H. apply H; apply wall_clock_spec; auto.
  - intros H i j Hi Hj. apply wall_clock_spec in Hi; [|exact Ha]. apply wall_clock_spec in Hj; [|exact Hb].
    unfold micros in H. lia.
Qed.

Lemma dt_lt_moment L a b x y : existing a -> existing b -> dt_tz a = Some x -> dt_tz b = Some y ->
  x = TzUTC \/ y = TzUTC -> dt_lt L a b = Ok (moment L true a <? moment L true b).
Proof.
  intros Ha Hb Hx Hy Hu. unfold dt_lt. rewrite Hx, Hy. unfold moment, inst, zone_of. rewrite Hx, Hy.
  assert (Ua : 0 <= t_us (dt_time a) <= 999999) by apply Ha.
  assert (Ub : 0 <= t_us (dt_time b) <= 999999) by apply Hb.
  destruct (tz_is x y) eqn:Ht.
  - apply tz_is_eq in Ht. assert (x = TzUTC) by (destruct Hu; congruence). subst x y.
    rewrite wall_ltb_spec by assumption. unfold micros. cbn [utcoffset]. rewrite !Z.sub_0_r. reflexivity.
  - f_equal. cbv zeta. set (i := dt_secs a - _) in *. set (j := dt_secs b - _) in *.
    destruct (Z.ltb_spec i j), (Z.eqb_spec i j), (Z.ltb_spec (t_us (dt_time a)) (t_us (dt_time b)));
      cbn [andb orb]; symmetry; lia.
Qed.

(** The bound check when comparisons with the bounds cannot fail. *)
Lemma bounds_r_on {A} (lt : A -> A -> res bool) (f : A -> Z) anc mn mx x r :
  (forall m, mn = Some m -> lt x m = Ok (f x <? f m)) -> (forall m, mx = Some m -> lt m x = Ok (f m <? f x)) ->
  let le a b := f a <= f b in
  (at_least le mn x -> at_most le mx x -> check_bounds_r lt anc mn mx x r = Ok r)
  /\ (forall m, mn = Some m -> ~ le m x -> check_bounds_r lt anc mn mx x r = verr anc $"minimum")
  /\ (forall m, mx = Some m -> ~ le x m -> at_least le mn x -> check_bounds_r lt anc mn mx x r = verr anc $"maximum").
Proof.
  intros Hmn Hmx le. unfold check_bounds_r, at_least, at_most, le.
  destruct mn as [m|], mx as [m'|];
    try rewrite (Hmn _ eq_refl); try rewrite (Hmx _ eq_refl); cbn [bind].
  1: destruct (Z.ltb_spec (f x) (f m)), (Z.ltb_spec (f m') (f x)).
  5: destruct (Z.ltb_spec (f x) (f m)).
  7: destruct (Z.ltb_spec (f m') (f x)).
  all: cbn [bind]; repeat split; intros; try reflexivity; try discriminate;
    repeat match goal with
    | H : Some _ = Some _ |- _ => injection H as <-
    | H : forall m0, Some ?m1 = Some m0 -> _ |- _ => specialize (H m1 eq_refl)
    end; exfalso; lia.
Qed.

(** @prop C12 UTC fields: a datetime (of any zone; naive ones are in UTC) whose instant can be expressed in UTC
    is accepted exactly when it is not before the minimum nor after the maximum as an instant; the
    result is the same instant in UTC.  Other datetimes overflow. *)
Lemma datetime_bounds_exact :
  forall E desc recon n p mn mx partial ph anc dt i,
    plain p -> existing dt -> instant (e_local E) true dt i ->
    (forall m, mn = Some m -> existing m /\ dt_tz m <> None) ->
    (forall m, mx = Some m -> existing m /\ dt_tz m <> None) ->
    let le := no_later (e_local E) true in
    let out := process_gen E desc recon n (Fld p (KDateTime mn mx true)) partial ph false anc (VDateTime dt) in
    let path := path_of p (KDateTime mn mx true) anc in
    (expressible i -> at_least le mn dt -> at_most le mx dt ->
     exists u, out = Ok (VDateTime u) /\ existing u /\ dt_tz u = Some TzUTC /\ instant (e_local E) true u i)
    /\ (forall m, mn = Some m -> expressible i -> ~ le m dt -> out = fails path $"minimum")
    /\ (forall m, mx = Some m -> expressible i -> ~ le dt m -> at_least le mn dt -> out = fails path $"maximum")
    /\ (~ expressible i -> out = Raise (XPy OverflowError)).
Proof.
  intros E desc recon n p mn mx partial ph anc dt i Hp He Hi Hmn Hmx le out path.
  assert (Hout : out = bind (dt_normalize E true dt)
                         (fun w => check_bounds_r (dt_lt (e_local E)) path mn mx w (VDateTime w))).
  { unfold out. rewrite process_native; try assumption; try reflexivity; [|discriminate|intros [_ H]; discriminate].
    cbn [validate_value]. fold path. destruct (dt_normalize E true dt); [|reflexivity]. cbn [bind].
    destruct (check_bounds_r _ _ _ _ _ _); reflexivity. }
  rewrite Hout. clear Hout out.
  pose proof Hi as Hi'. apply instant_spec in Hi'; [|exact He].
  assert (Hus : 0 <= t_us (dt_time dt) <= 999999) by apply He.
  assert (Hx : expressible i <-> 0 <= inst (e_local E) true dt < max_secs) by (rewrite expressible_spec; lia).
  assert (Hn : (expressible i -> exists w, dt_normalize E true dt = Ok w)
               /\ (~ expressible i -> dt_normalize E true dt = Raise (XPy OverflowError))).
  { rewrite Hx. clear Hx. unfold dt_normalize, inst, zone_of. destruct (dt_tz dt) as [z|] eqn:Hz.
    - destruct (tz_is z TzUTC) eqn:Ht.
      + split; [eauto|]. intros H. exfalso. apply H. apply tz_is_eq in Ht. subst z. cbn [utcoffset].
        pose proof (dt_secs_range _ He). lia.
      + split.
        * intros H. destruct (to_utc_some (e_local E) dt z He H) as [w ->]. eauto.
        * intros H. destruct (astimezone (e_local E) dt z TzUTC) as [w|] eqn:Hw; [|reflexivity]. exfalso. apply H.
          apply to_utc_spec in Hw; [|exact He]. destruct Hw as [Ew [Sw _]]. rewrite <- Sw. apply dt_secs_range, Ew.
    - split; [eauto|]. intros H. exfalso. apply H. cbn [utcoffset]. pose proof (dt_secs_range _ He). lia. }
  destruct Hn as [Hn1 Hn2].
  assert (Hmain : forall w, dt_normalize E true dt = Ok w ->
     existing w /\ dt_tz w = Some TzUTC /\ moment (e_local E) true w = moment (e_local E) true dt).
  { intros w Hw. apply normalize_spec in Hw; [|exact He|auto]. destruct Hw as [Ew [Zw [Uw Iw]]].
    split; [exact Ew|]. split; [exact Zw|]. unfold moment. congruence. }
  assert (Hb : forall w, dt_normalize E true dt = Ok w ->
     (at_least le mn dt -> at_most le mx dt ->
        check_bounds_r (dt_lt (e_local E)) path mn mx w (VDateTime w) = Ok (VDateTime w))
     /\ (forall m, mn = Some m -> ~ le m dt ->
        check_bounds_r (dt_lt (e_local E)) path mn mx w (VDateTime w) = verr path $"minimum")
     /\ (forall m, mx = Some m -> ~ le dt m -> at_least le mn dt ->
        check_bounds_r (dt_lt (e_local E)) path mn mx w (VDateTime w) = verr path $"maximum")).
  { intros w Hw. destruct (Hmain w Hw) as [Ew [Zw Mw]].
    assert (A1 : forall m, mn = Some m -> dt_lt (e_local E) w m
                 = Ok (moment (e_local E) true w <? moment (e_local E) true m)).
    { intros m Hm. destruct (Hmn m Hm) as [Em Zm]. destruct (dt_tz m) as [y|] eqn:Hy; [|congruence].
      eapply dt_lt_moment; eauto. }
    assert (A2 : forall m, mx = Some m -> dt_lt (e_local E) m w
                 = Ok (moment (e_local E) true m <? moment (e_local E) true w)).
    { intros m Hm. destruct (Hmx m Hm) as [Em Zm]. destruct (dt_tz m) as [y|] eqn:Hy; [|congruence].
      eapply dt_lt_moment; eauto. }
    destruct (bounds_r_on _ (moment (e_local E) true) path mn mx w (VDateTime w) A1 A2) as [B1 [B2 B3]].
    cbv zeta in B1, B2, B3.
    assert (C1 : at_least le mn dt -> at_least (fun a b => moment (e_local E) true a <= moment (e_local E) true b) mn w).
    { intros H m Hm. specialize (H m Hm). apply no_later_spec in H; [|apply (Hmn m Hm)|exact He]. lia. }
    assert (C2 : at_most le mx dt -> at_most (fun a b => moment (e_local E) true a <= moment (e_local E) true b) mx w).
    { intros H m Hm. specialize (H m Hm). apply no_later_spec in H; [|exact He|apply (Hmx m Hm)]. lia. }
    split; [auto|]. split.
    - intros m Hm H. apply (B2 m Hm). intros H'. apply H. apply no_later_spec; [apply (Hmn m Hm)|exact He|lia].
    - intros m Hm H H0. apply (B3 m Hm); [|auto]. intros H'. apply H. apply no_later_spec; [exact He|apply (Hmx m Hm)|lia]. }
  split; [|split; [|split]].
  - intros H H1 H2. destruct (Hn1 H) as [w Hw]. rewrite Hw. cbn [bind].
    destruct (Hmain w Hw) as [Ew [Zw Mw]]. exists w. split; [apply (Hb w Hw); assumption|].
    split; [exact Ew|]. split; [exact Zw|]. apply instant_spec; [exact Ew|]. unfold moment in Mw. lia.
  - intros m Hm H H1. destruct (Hn1 H) as [w Hw]. rewrite Hw. cbn [bind]. apply (proj1 (proj2 (Hb w Hw)) m Hm H1).
  - intros m Hm H H1 H2. destruct (Hn1 H) as [w Hw]. rewrite Hw. cbn [bind]. apply (proj2 (proj2 (Hb w Hw)) m Hm H1 H2).
  - intros H. rewrite (Hn2 H). reflexivity.
Qed.

(** @example
(* 00:30 at UTC+1 is 23:30 UTC of the day before. *)
Example C12_example :
  let f := Fld p0 (KDateTime (Some (DateTime (Date 2012 1 1) (Tod 0 0 0 0) (Some TzUTC))) None true) in
  run0 f Inbound false (VDateTime (DateTime (Date 2012 1 1) (Tod 0 30 0 0) (Some (TzFixed 60))))
  = fails [$"(datetime)"] $"minimum"
  /\ run0 f Inbound false (VDateTime (DateTime (Date 2011 12 31) (Tod 23 30 0 0) (Some (TzFixed (-60)))))
     = Ok (VDateTime (DateTime (Date 2012 1 1) (Tod 0 30 0 0) (Some TzUTC))).
Proof. split; reflexivity. Qed.
@end *)

(** @prop C12 Local fields: naive and local datetimes are compared with local bounds by the wall clock. *)
Lemma datetime_bounds_local :
  forall E desc recon n p mn mx partial ph anc dt,
    plain p -> existing dt -> dt_tz dt = None \/ dt_tz dt = Some TzLocal ->
    (forall m, mn = Some m -> existing m /\ dt_tz m = Some TzLocal) ->
    (forall m, mx = Some m -> existing m /\ dt_tz m = Some TzLocal) ->
    let out := process_gen E desc recon n (Fld p (KDateTime mn mx false)) partial ph false anc (VDateTime dt) in
    let path := path_of p (KDateTime mn mx false) anc in
    (at_least no_later_wall mn dt -> at_most no_later_wall mx dt ->
     out = Ok (VDateTime (with_tz dt (Some TzLocal))))
    /\ (forall m, mn = Some m -> ~ no_later_wall m dt -> out = fails path $"minimum")
    /\ (forall m, mx = Some m -> ~ no_later_wall dt m -> at_least no_later_wall mn dt -> out = fails path $"maximum").
Proof.
  intros E desc recon n p mn mx partial ph anc dt Hp He Hz Hmn Hmx out path.
  set (w := with_tz dt (Some TzLocal)).
  assert (Ew : existing w) by exact He.
  assert (Hout : out = check_bounds_r (dt_lt (e_local E)) path mn mx w (VDateTime w)).
  { unfold out. rewrite process_native; try assumption; try reflexivity; [|discriminate|intros [_ H]; discriminate].
    cbn [validate_value]. fold path.
    replace (dt_normalize E false dt) with (@Ok datetime w).
    - cbn [bind]. destruct (check_bounds_r _ _ _ _ _ _); reflexivity.
    - unfold dt_normalize. destruct Hz as [-> |Hz']; [reflexivity|]. rewrite Hz'. cbn [tz_is]. unfold w.
      destruct dt as [d t z]. cbn in Hz'. subst z. reflexivity. }
  rewrite Hout. clear Hout out.
  assert (Mw : micros w = micros dt) by reflexivity.
  assert (A : forall m, existing m -> dt_tz m = Some TzLocal ->
     dt_lt (e_local E) w m = Ok (micros w <? micros m) /\ dt_lt (e_local E) m w = Ok (micros m <? micros w)).
  { intros m Em Zm. unfold dt_lt. rewrite Zm. cbn [dt_tz w with_tz tz_is].
    rewrite !wall_ltb_spec by assumption. split; reflexivity. }
  assert (A1 : forall m, mn = Some m -> dt_lt (e_local E) w m = Ok (micros w <? micros m)).
  { intros m Hm. destruct (Hmn m Hm). apply A; assumption. }
  assert (A2 : forall m, mx = Some m -> dt_lt (e_local E) m w = Ok (micros m <? micros w)).
  { intros m Hm. destruct (Hmx m Hm). apply A; assumption. }
  destruct (bounds_r_on _ micros path mn mx w (VDateTime w) A1 A2) as [B1 [B2 B3]].
  cbv zeta in B1, B2, B3.
  assert (C1 : at_least no_later_wall mn dt -> at_least (fun a b => micros a <= micros b) mn w).
  { intros H m Hm. specialize (H m Hm). apply no_later_wall_spec in H; [|apply (Hmn m Hm)|exact He]. lia. }
  assert (C2 : at_most no_later_wall mx dt -> at_most (fun a b => micros a <= micros b) mx w).
  { intros H m Hm. specialize (H m Hm). apply no_later_wall_spec in H; [|exact He|apply (Hmx m Hm)]. lia. }
  split; [auto|]. split.
  - intros m Hm H. apply (B2 m Hm). intros H'. apply H. apply no_later_wall_spec; [apply (Hmn m Hm)|exact He|lia].
  - intros m Hm H H0. apply (B3 m Hm); [|auto]. intros H'. apply H. apply no_later_wall_spec; [exact He|apply (Hmx m Hm)|lia].
Qed.

(** @example
Example C12_local_example :
  let f := Fld p0 (KDateTime None (Some (DateTime (Date 2012 1 1) (Tod 0 0 0 0) (Some TzLocal))) false) in
  run0 f Inbound false (VDateTime (DateTime (Date 2012 1 1) (Tod 0 0 0 1) None)) = fails [$"(datetime)"] $"maximum"
  /\ run0 f Inbound false (VDateTime (DateTime (Date 2012 1 1) (Tod 0 0 0 0) None))
     = Ok (VDateTime (DateTime (Date 2012 1 1) (Tod 0 0 0 0) (Some TzLocal))).
Proof. split; reflexivity. Qed.
@end *)
