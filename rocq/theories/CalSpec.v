(** * Vocabulary for the calendar claims (C09 to C12), independent of the algorithms of the model. *)
From Verif Require Export Spec.
Open Scope Z_scope.

(** Gregorian leap years. *)
Definition leap_year (y : Z) : Prop := (4 | y) /\ (~ (100 | y) \/ (400 | y)).

(** [n] days in month [m] of year [y]. *)
Inductive month_length (y : Z) : Z -> Z -> Prop :=
| ml_long : forall m, In m [1; 3; 5; 7; 8; 10; 12] -> month_length y m 31
| ml_short : forall m, In m [4; 6; 9; 11] -> month_length y m 30
| ml_leap : leap_year y -> month_length y 2 29
| ml_common : ~ leap_year y -> month_length y 2 28.

(** An existing calendar day of the years Python supports. *)
Definition existing_day (d : date) : Prop :=
  1 <= d_year d <= 9999 /\ exists n, month_length (d_year d) (d_month d) n /\ 1 <= d_day d <= n.

(** The day [b] is the day after [a]. *)
Inductive day_after (a : date) : date -> Prop :=
| da_same_month : forall n, month_length (d_year a) (d_month a) n -> d_day a < n ->
    day_after a (Date (d_year a) (d_month a) (d_day a + 1))
| da_next_month : forall n, month_length (d_year a) (d_month a) n -> d_day a = n -> d_month a < 12 ->
    day_after a (Date (d_year a) (d_month a + 1) 1)
| da_next_year : d_month a = 12 -> d_day a = 31 -> day_after a (Date (d_year a + 1) 1 1).

(** [later n a b]: the day [b] is [n] days after the day [a]. *)
Inductive later : nat -> date -> date -> Prop :=
| later_0 : forall a, later 0 a a
| later_S : forall n a b c, day_after a b -> later n b c -> later (S n) a c.

(** [a] is not after [b]. *)
Definition day_le (a b : date) : Prop := exists n, later n a b.

(** An existing time of day, and the microseconds elapsed since midnight. *)
Definition existing_time (t : tod) : Prop :=
  0 <= t_hour t <= 23 /\ 0 <= t_min t <= 59 /\ 0 <= t_sec t <= 59 /\ 0 <= t_us t <= 999999.
Definition elapsed (t : tod) : Z :=
  ((t_hour t * 60 + t_min t) * 60 + t_sec t) * 1000000 + t_us t.

(** [s] is [z] written with exactly [w] ASCII digits. *)
Definition numeral (w : nat) (s : str) (z : Z) : Prop :=
  exists ds, s = map (fun d => 48 + d)%N ds /\ length ds = w /\ Forall (fun d => d < 10)%N ds
             /\ place_value ds = z.

(** YYYY-MM-DD and HH:MM:SS. *)
Definition iso_date (s : str) (d : date) : Prop :=
  exists y m dd, s = y ++ $"-" ++ m ++ $"-" ++ dd
    /\ numeral 4 y (d_year d) /\ numeral 2 m (d_month d) /\ numeral 2 dd (d_day d).
Definition iso_time (s : str) (t : tod) : Prop :=
  exists h m x, s = h ++ $":" ++ m ++ $":" ++ x
    /\ numeral 2 h (t_hour t) /\ numeral 2 m (t_min t) /\ numeral 2 x (t_sec t).

(** [s] is [z] written with between [a] and [b] digits of any script known to the environment
    ([e_udigit] gives the value of digits beyond ASCII). *)
Definition digit_of (E : env) (c : N) (d : N) : Prop :=
  (c = 48 + d /\ d < 10)%N \/ (128 <= c)%N /\ e_udigit E c = Some d.
Definition loose_numeral (E : env) (a b : nat) (s : str) (z : Z) : Prop :=
  exists ds, Forall2 (digit_of E) s ds /\ (a <= length ds <= b)%nat /\ place_value ds = z.

(** Texts denoting a day or a time of day: as above, but leading zeros are optional (a day of one
    digit may also be preceded by a blank). *)
Definition denotes_day (E : env) (s : str) (d : date) : Prop :=
  exists y m b dd, s = y ++ $"-" ++ m ++ $"-" ++ b ++ dd
    /\ loose_numeral E 4 4 y (d_year d) /\ loose_numeral E 1 2 m (d_month d)
    /\ loose_numeral E 1 2 dd (d_day d) /\ (b = [] \/ b = $" " /\ length dd = 1%nat).
Definition denotes_time (E : env) (s : str) (t : tod) : Prop :=
  exists h m x, s = h ++ $":" ++ m ++ $":" ++ x
    /\ loose_numeral E 1 2 h (t_hour t) /\ loose_numeral E 1 2 m (t_min t)
    /\ loose_numeral E 1 2 x (t_sec t) /\ t_us t = 0.

(** An existing wall clock reading, and the microseconds from 0001-01-01T00:00:00 to it. *)
Definition existing (dt : datetime) : Prop := existing_day (dt_date dt) /\ existing_time (dt_time dt).
Definition wall_clock (dt : datetime) (w : Z) : Prop :=
  exists n, later n (Date 1 1 1) (dt_date dt) /\ w = Z.of_nat n * 86400 * 1000000 + elapsed (dt_time dt).

(** The offset from UTC, in seconds, of a time zone at a wall clock reading (in seconds). *)
Inductive offset_at (L : localtz) (w : Z) : tz -> Z -> Prop :=
| off_utc : offset_at L w TzUTC 0
| off_fixed : forall m, offset_at L w (TzFixed m) (60 * m)
| off_dst : lt_isdst L w = true -> offset_at L w TzLocal (lt_dst L)
| off_std : lt_isdst L w = false -> offset_at L w TzLocal (lt_std L).

(** The time zone in which a datetime is read by a field: its own, or that of the field. *)
Definition zone_of (utc : bool) (dt : datetime) : tz :=
  match dt_tz dt with Some z => z | None => if utc then TzUTC else TzLocal end.

(** The instant of a datetime: microseconds from 0001-01-01T00:00:00 UTC. *)
Definition instant (L : localtz) (utc : bool) (dt : datetime) (i : Z) : Prop :=
  exists w o, wall_clock dt w /\ offset_at L (w / 1000000) (zone_of utc dt) o /\ i = w - o * 1000000.

(** An instant Python can express in UTC: before the end of the year 9999. *)
Definition expressible (i : Z) : Prop := exists dt, existing dt /\ wall_clock dt i.

(** The environment with another local time zone. *)
Definition with_local (E : env) (L : localtz) : env :=
  {| e_pre := e_pre E; e_ext := e_ext E; e_inst := e_inst E; e_pattern := e_pattern E; e_local := L;
     e_pad := e_pad E; e_udigit := e_udigit E; e_uword := e_uword E; e_ulower := e_ulower E;
     e_import := e_import E; e_identify := e_identify E; e_undef := e_undef E; e_str := e_str E;
     e_impl := e_impl E; e_schemas := e_schemas E; e_compile := e_compile E;
     e_surrogate := e_surrogate E; e_identity := e_identity E; e_repr := e_repr E |}.

(** A text YYYY-MM-DDTHH:MM:SSZ. *)
Definition iso_datetime (s : str) (dt : datetime) : Prop :=
  exists a b, s = a ++ $"T" ++ b ++ $"Z" /\ iso_date a (dt_date dt) /\ iso_time b (dt_time dt).
Definition denotes_datetime (E : env) (s : str) (dt : datetime) : Prop :=
  exists a t b z, s = a ++ [t] ++ b ++ [z] /\ denotes_day E a (dt_date dt) /\ denotes_time E b (dt_time dt)
    /\ In t $"Tt" /\ In z $"Zz" /\ dt_tz dt = Some TzUTC.

(** Of two datetimes the first is not after the second, as instants (naive ones in the zone of the
    field), resp. as wall clock readings.  /repo/scheme/fields/datetime.py:96-110 *)
Definition no_later (L : localtz) (utc : bool) (a b : datetime) : Prop :=
  forall i j, instant L utc a i -> instant L utc b j -> i <= j.
Definition no_later_wall (a b : datetime) : Prop :=
  forall i j, wall_clock a i -> wall_clock b j -> i <= j.
