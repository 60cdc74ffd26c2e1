(** Property theorems proved in CalProofs.v (generated by tools/mkprops.py). *)
From Verif Require Import Spec Demo CalSpec CalFacts CalProofs.
Open Scope Z_scope.

(** C09.  Acceptance of native dates, exactly: within the bounds in the order of the calendar (one day
    after another); the value is unchanged. *)
Theorem C09_date_native_exact :
  forall E desc recon n p mn mx partial ph anc d,
    plain p -> existing_day d ->
    (forall m, mn = Some m -> existing_day m) -> (forall m, mx = Some m -> existing_day m) ->
    let out := process_gen E desc recon n (Fld p (KDate mn mx)) partial ph false anc (VDate d) in
    let path := path_of p (KDate mn mx) anc in
    (at_least day_le mn d -> at_most day_le mx d -> out = Ok (VDate d))
    /\ (forall m, mn = Some m -> ~ day_le m d -> out = fails path $"minimum")
    /\ (forall m, mx = Some m -> ~ day_le d m -> at_least day_le mn d -> out = fails path $"maximum").
Proof. exact date_native_exact. Qed.
Print Assumptions C09_date_native_exact.

Example C09_native_example :
  let f := Fld p0 (KDate (Some (Date 2012 2 28)) (Some (Date 2012 3 1))) in
  existing_day (Date 2012 2 29) /\ day_le (Date 2012 2 28) (Date 2012 2 29)
  /\ run0 f Inbound false (VDate (Date 2012 2 29)) = Ok (VDate (Date 2012 2 29))
  /\ run0 f Inbound false (VDate (Date 2012 2 27)) = fails [$"(date)"] $"minimum".
Proof.
  split; [split; [cbn; lia|]; exists 29; split; [apply ml_leap|cbn; lia]|].
  { split; [exists 503; reflexivity|]. left. intros [k H]. cbn in H. lia. }
  split; [exists 1%nat; econstructor; [eapply da_same_month with (n := 29)|constructor]|].
  { apply ml_leap. split; [exists 503; reflexivity|]. left. intros [k H]. cbn in H. lia. }
  { cbn. lia. }
  split; reflexivity.
Qed.

(** C09.  The text of a date is YYYY-MM-DD and is read back as the same date (years of four digits;
    all years when the C library pads them). *)
Theorem C09_date_round_trip :
  forall E desc recon n p mn mx partial anc d,
    plain p -> existing_day d ->
    (forall m, mn = Some m -> existing_day m) -> (forall m, mx = Some m -> existing_day m) ->
    at_least day_le mn d -> at_most day_le mx d ->
    e_pad E = true \/ 1000 <= d_year d ->
    exists s,
      process_gen E desc recon n (Fld p (KDate mn mx)) partial Outbound true anc (VDate d) = Ok (VStr s)
      /\ iso_date s d
      /\ process_gen E desc recon n (Fld p (KDate mn mx)) partial Inbound true anc (VStr s) = Ok (VDate d).
Proof. exact date_round_trip. Qed.
Print Assumptions C09_date_round_trip.

Example C09_example :
  exists s, run0 (Fld p0 (KDate None None)) Outbound true (VDate (Date 2012 2 29)) = Ok (VStr s)
            /\ s = $"2012-02-29"
            /\ run0 (Fld p0 (KDate None None)) Inbound true (VStr s) = Ok (VDate (Date 2012 2 29)).
Proof. eexists. split; [reflexivity|]. split; reflexivity. Qed.

(** C09.  Every text YYYY-MM-DD of an existing day within the bounds is accepted. *)
Theorem C09_date_text_accepted :
  forall E desc recon n p mn mx partial anc s d,
    plain p -> existing_day d -> iso_date s d ->
    (forall m, mn = Some m -> existing_day m) -> (forall m, mx = Some m -> existing_day m) ->
    at_least day_le mn d -> at_most day_le mx d ->
    process_gen E desc recon n (Fld p (KDate mn mx)) partial Inbound true anc (VStr s) = Ok (VDate d).
Proof. exact date_text_accepted. Qed.
Print Assumptions C09_date_text_accepted.

Example C09_text_example :
  iso_date $"0004-02-29" (Date 4 2 29)
  /\ run0 (Fld p0 (KDate None None)) Inbound true (VStr $"0004-02-29") = Ok (VDate (Date 4 2 29)).
Proof.
  split; [|reflexivity]. exists $"0004", $"02", $"29". split; [reflexivity|]. split; [|split].
  - exists [0; 0; 0; 4]%N. repeat split; repeat constructor.
  - exists [0; 2]%N. repeat split; repeat constructor.
  - exists [2; 9]%N. repeat split; repeat constructor.
Qed.

(** C09.  Unserialization accepts a text only when it denotes an existing day, within the bounds; any
    other text is an InvalidTypeError. *)
Theorem C09_date_text_denotes :
  forall E desc recon n p mn mx partial anc s,
    plain p ->
    (forall m, mn = Some m -> existing_day m) -> (forall m, mx = Some m -> existing_day m) ->
    let out := process_gen E desc recon n (Fld p (KDate mn mx)) partial Inbound true anc (VStr s) in
    (forall r, out = Ok r ->
       exists d, r = VDate d /\ existing_day d /\ denotes_day E s d /\ at_least day_le mn d /\ at_most day_le mx d)
    /\ ((forall d, existing_day d -> ~ denotes_day E s d) -> out = invalid_type (path_of p (KDate mn mx) anc)).
Proof. exact date_text_denotes. Qed.
Print Assumptions C09_date_text_denotes.

Example C09_rejected_example :
  run0 (Fld p0 (KDate None None)) Inbound true (VStr $"2011-02-29") = invalid_type [$"(date)"]
  /\ run0 (Fld p0 (KDate None None)) Inbound true (VStr $"2011-02-28 ") = invalid_type [$"(date)"]
  /\ run0 (Fld p0 (KDate None None)) Inbound true (VStr $"2011-2- 8") = Ok (VDate (Date 2011 2 8)).
Proof. repeat split; reflexivity. Qed.

(** C10.  Acceptance of native times, exactly: within the bounds, by the time elapsed since midnight. *)
Theorem C10_time_native_exact :
  forall E desc recon n p mn mx partial ph anc t,
    plain p -> existing_time t ->
    (forall m, mn = Some m -> existing_time m) -> (forall m, mx = Some m -> existing_time m) ->
    let le a b := elapsed a <= elapsed b in
    let out := process_gen E desc recon n (Fld p (KTime mn mx)) partial ph false anc (VTime t) in
    let path := path_of p (KTime mn mx) anc in
    (at_least le mn t -> at_most le mx t -> out = Ok (VTime t))
    /\ (forall m, mn = Some m -> elapsed t < elapsed m -> out = fails path $"minimum")
    /\ (forall m, mx = Some m -> elapsed m < elapsed t -> at_least le mn t -> out = fails path $"maximum").
Proof. exact time_native_exact. Qed.
Print Assumptions C10_time_native_exact.

Example C10_native_example :
  let f := Fld p0 (KTime (Some (Tod 9 30 0 0)) (Some (Tod 17 0 0 0))) in
  run0 f Inbound false (VTime (Tod 17 0 0 0)) = Ok (VTime (Tod 17 0 0 0))
  /\ run0 f Inbound false (VTime (Tod 17 0 0 1)) = fails [$"(time)"] $"maximum"
  /\ run0 f Inbound false (VTime (Tod 9 29 59 0)) = fails [$"(time)"] $"minimum".
Proof. repeat split; reflexivity. Qed.

(** C10.  The text of a time is HH:MM:SS and is read back as the same time without microseconds
    (rejected only if dropping them takes it below the minimum). *)
Theorem C10_time_round_trip :
  forall E desc recon n p mn mx partial anc t,
    plain p -> existing_time t ->
    (forall m, mn = Some m -> existing_time m) -> (forall m, mx = Some m -> existing_time m) ->
    let le a b := elapsed a <= elapsed b in
    let t' := Tod (t_hour t) (t_min t) (t_sec t) 0 in
    at_least le mn t' -> at_most le mx t ->
    exists s,
      process_gen E desc recon n (Fld p (KTime mn mx)) partial Outbound true anc (VTime t) = Ok (VStr s)
      /\ iso_time s t
      /\ process_gen E desc recon n (Fld p (KTime mn mx)) partial Inbound true anc (VStr s) = Ok (VTime t').
Proof. exact time_round_trip. Qed.
Print Assumptions C10_time_round_trip.

Example C10_example :
  run0 (Fld p0 (KTime None None)) Outbound true (VTime (Tod 23 59 59 999999)) = Ok (VStr $"23:59:59")
  /\ run0 (Fld p0 (KTime None None)) Inbound true (VStr $"23:59:59") = Ok (VTime (Tod 23 59 59 0)).
Proof. split; reflexivity. Qed.

(** C10.  Unserialization accepts a text only when it denotes an existing time of day, within the
    bounds; any other text is an InvalidTypeError. *)
Theorem C10_time_text_denotes :
  forall E desc recon n p mn mx partial anc s,
    plain p ->
    (forall m, mn = Some m -> existing_time m) -> (forall m, mx = Some m -> existing_time m) ->
    let le a b := elapsed a <= elapsed b in
    let out := process_gen E desc recon n (Fld p (KTime mn mx)) partial Inbound true anc (VStr s) in
    (forall r, out = Ok r ->
       exists t, r = VTime t /\ existing_time t /\ denotes_time E s t /\ at_least le mn t /\ at_most le mx t)
    /\ ((forall t, existing_time t -> ~ denotes_time E s t) -> out = invalid_type (path_of p (KTime mn mx) anc)).
Proof. exact time_text_denotes. Qed.
Print Assumptions C10_time_text_denotes.

Example C10_rejected_example :
  run0 (Fld p0 (KTime None None)) Inbound true (VStr $"24:00:00") = invalid_type [$"(time)"]
  /\ run0 (Fld p0 (KTime None None)) Inbound true (VStr $"23:59:60") = invalid_type [$"(time)"]
  /\ run0 (Fld p0 (KTime None None)) Inbound true (VStr $"7:5:9") = Ok (VTime (Tod 7 5 9 0)).
Proof. repeat split; reflexivity. Qed.

(** C11.  Whenever a datetime (naive, UTC, or of any fixed offset or local zone) is serialized by a field,
    the text is read by a UTC field as the same instant, with the microseconds dropped.  A naive datetime
    is taken in the zone of the field.  For a field in local time a value of another zone is covered
    only when the local zone has no daylight saving time; years before 1000 need a C library that
    pads [%Y]. *)
Theorem C11_datetime_instants_partial :
  forall E desc recon n p mn mx utc partial anc dt r i,
    plain p -> existing dt -> instant (e_local E) utc dt i ->
    utc = true \/ dt_tz dt = None \/ dt_tz dt = Some TzLocal \/ lt_dst (e_local E) = lt_std (e_local E) ->
    e_pad E = true \/ (forall j, wall_clock (DateTime (Date 1000 1 1) (Tod 0 0 0 0) None) j -> j <= i) ->
    process_gen E desc recon n (Fld p (KDateTime mn mx utc)) partial Outbound true anc (VDateTime dt) = Ok r ->
    exists s u,
      r = VStr s /\ iso_datetime s u /\ existing u /\ dt_tz u = Some TzUTC /\ t_us (dt_time u) = 0
      /\ instant (e_local E) true u (i / 1000000 * 1000000)
      /\ forall n' q partial' anc', plain q ->
           process_gen E desc recon n' (Fld q (KDateTime None None true)) partial' Inbound true anc' r
           = Ok (VDateTime u).
Proof. exact datetime_instants_partial. Qed.
Print Assumptions C11_datetime_instants_partial.

(* 23:30 at UTC-5 is 04:30 of the next day. *)
Example C11_example :
  let dt := DateTime (Date 2011 12 31) (Tod 23 30 7 250000) (Some (TzFixed (-300))) in
  let f := Fld p0 (KDateTime None None true) in
  existing dt
  /\ run0 f Outbound true (VDateTime dt) = Ok (VStr $"2012-01-01T04:30:07Z")
  /\ run0 f Inbound true (VStr $"2012-01-01T04:30:07Z")
     = Ok (VDateTime (DateTime (Date 2012 1 1) (Tod 4 30 7 0) (Some TzUTC)))
  /\ run0 (Fld p0 (KDateTime None None false)) Outbound true (VDateTime (with_tz dt None))
     = Ok (VStr $"2011-12-31T22:30:07Z").
Proof.
  split; [|repeat split; reflexivity].
  split; [split; [cbn; lia|]; exists 31; split; [apply ml_long; cbn; auto 10|cbn; lia]|repeat split; cbn; lia].
Qed.

(** C11.  A UTC field without bounds does serialize every datetime whose instant can be expressed in
    UTC. *)
Theorem C11_datetime_serializes :
  forall E desc recon n p partial anc dt i,
    plain p -> existing dt -> instant (e_local E) true dt i -> expressible i ->
    exists s, process_gen E desc recon n (Fld p (KDateTime None None true)) partial Outbound true anc (VDateTime dt)
              = Ok (VStr s).
Proof. exact datetime_serializes. Qed.
Print Assumptions C11_datetime_serializes.

Example C11_serializes_example :
  let dt := DateTime (Date 1 1 1) (Tod 0 0 0 5) (Some (TzFixed 0)) in
  run0 (Fld p0 (KDateTime None None true)) Outbound true (VDateTime dt) = Ok (VStr $"0001-01-01T00:00:00Z")
  /\ run0 (Fld p0 (KDateTime None None true)) Outbound true
       (VDateTime (DateTime (Date 1 1 1) (Tod 0 0 0 5) (Some (TzFixed 1)))) = Raise (XPy OverflowError).
Proof. split; reflexivity. Qed.

(** C11.  With daylight saving time the claim fails for local fields: in the hour after the end of
    summer time (here, at 2000 hours of the first year) a UTC value is shifted by an hour. *)
Theorem C11_datetime_instants_refuted :
  exists E desc recon n dt s u i,
    existing dt /\ dt_tz dt = Some TzUTC /\ instant (e_local E) false dt i
    /\ process_gen E desc recon n (Fld p0 (KDateTime None None false)) false Outbound true [] (VDateTime dt) = Ok (VStr s)
    /\ process_gen E desc recon n (Fld p0 (KDateTime None None true)) false Inbound true [] (VStr s) = Ok (VDateTime u)
    /\ instant (e_local E) true u (i + 3600 * 1000000).
Proof. exact datetime_instants_refuted. Qed.
Print Assumptions C11_datetime_instants_refuted.

(** C11.  Unserialization accepts a text only when it denotes an existing wall clock reading in UTC. *)
Theorem C11_datetime_text_denotes :
  forall E desc recon n p partial anc s,
    plain p ->
    let out := process_gen E desc recon n (Fld p (KDateTime None None true)) partial Inbound true anc (VStr s) in
    (forall r, out = Ok r -> exists dt, r = VDateTime dt /\ existing dt /\ denotes_datetime E s dt)
    /\ ((forall dt, existing dt -> ~ denotes_datetime E s dt) ->
        out = invalid_type (path_of p (KDateTime None None true) anc)).
Proof. exact datetime_text_denotes. Qed.
Print Assumptions C11_datetime_text_denotes.

Example C11_rejected_example :
  run0 (Fld p0 (KDateTime None None true)) Inbound true (VStr $"2011-02-28T24:00:00Z") = invalid_type [$"(datetime)"]
  /\ run0 (Fld p0 (KDateTime None None true)) Inbound true (VStr $"2011-02-28t1:2:3z")
     = Ok (VDateTime (DateTime (Date 2011 2 28) (Tod 1 2 3 0) (Some TzUTC))).
Proof. split; reflexivity. Qed.

(** C12.  UTC fields: a datetime (of any zone; naive ones are in UTC) whose instant can be expressed in UTC
    is accepted exactly when it is not before the minimum nor after the maximum as an instant; the
    result is the same instant in UTC.  Other datetimes overflow. *)
Theorem C12_datetime_bounds_exact :
  forall E desc recon n p mn mx partial ph anc dt i,
    plain p -> existing dt -> instant (e_local E) true dt i ->
    (forall m, mn = Some m -> existing m /\ dt_tz m <> None) ->
    (forall m, mx = Some m -> existing m /\ dt_tz m <> None) ->
    let le := no_later (e_local E) true in
    let out := process_gen E desc recon n (Fld p (KDateTime mn mx true)) partial ph false anc (VDateTime dt) in
    let path := path_of p (KDateTime mn mx true) anc in
    (expressible i -> at_least le mn dt -> at_most le mx dt ->
     exists u, out = Ok (VDateTime u) /\ existing u /\ dt_tz u = Some TzUTC /\ instant (e_local E) true u i)
    /\ (forall m, mn = Some m -> expressible i -> ~ le m dt -> out = fails path $"minimum")
    /\ (forall m, mx = Some m -> expressible i -> ~ le dt m -> at_least le mn dt -> out = fails path $"maximum")
    /\ (~ expressible i -> out = Raise (XPy OverflowError)).
Proof. exact datetime_bounds_exact. Qed.
Print Assumptions C12_datetime_bounds_exact.

(* 00:30 at UTC+1 is 23:30 UTC of the day before. *)
Example C12_example :
  let f := Fld p0 (KDateTime (Some (DateTime (Date 2012 1 1) (Tod 0 0 0 0) (Some TzUTC))) None true) in
  run0 f Inbound false (VDateTime (DateTime (Date 2012 1 1) (Tod 0 30 0 0) (Some (TzFixed 60))))
  = fails [$"(datetime)"] $"minimum"
  /\ run0 f Inbound false (VDateTime (DateTime (Date 2011 12 31) (Tod 23 30 0 0) (Some (TzFixed (-60)))))
     = Ok (VDateTime (DateTime (Date 2012 1 1) (Tod 0 30 0 0) (Some TzUTC))).
Proof. split; reflexivity. Qed.

(** C12.  Local fields: naive and local datetimes are compared with local bounds by the wall clock. *)
Theorem C12_datetime_bounds_local :
  forall E desc recon n p mn mx partial ph anc dt,
    plain p -> existing dt -> dt_tz dt = None \/ dt_tz dt = Some TzLocal ->
    (forall m, mn = Some m -> existing m /\ dt_tz m = Some TzLocal) ->
    (forall m, mx = Some m -> existing m /\ dt_tz m = Some TzLocal) ->
    let out := process_gen E desc recon n (Fld p (KDateTime mn mx false)) partial ph false anc (VDateTime dt) in
    let path := path_of p (KDateTime mn mx false) anc in
    (at_least no_later_wall mn dt -> at_most no_later_wall mx dt ->
     out = Ok (VDateTime (with_tz dt (Some TzLocal))))
    /\ (forall m, mn = Some m -> ~ no_later_wall m dt -> out = fails path $"minimum")
    /\ (forall m, mx = Some m -> ~ no_later_wall dt m -> at_least no_later_wall mn dt -> out = fails path $"maximum").
Proof. exact datetime_bounds_local. Qed.
Print Assumptions C12_datetime_bounds_local.

Example C12_local_example :
  let f := Fld p0 (KDateTime None (Some (DateTime (Date 2012 1 1) (Tod 0 0 0 0) (Some TzLocal))) false) in
  run0 f Inbound false (VDateTime (DateTime (Date 2012 1 1) (Tod 0 0 0 1) None)) = fails [$"(datetime)"] $"maximum"
  /\ run0 f Inbound false (VDateTime (DateTime (Date 2012 1 1) (Tod 0 0 0 0) None))
     = Ok (VDateTime (DateTime (Date 2012 1 1) (Tod 0 0 0 0) (Some TzLocal))).
Proof. split; reflexivity. Qed.
