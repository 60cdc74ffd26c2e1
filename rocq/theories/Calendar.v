(** * Dates, times, datetimes: the parts of [datetime], [time.strptime] and [strftime] used by
    /repo/scheme/fields/date.py, time.py, datetime.py and /repo/scheme/timezone.py.

    Simplifications: [time] values are naive; the only [tzinfo] objects are the ones of
    /repo/scheme/timezone.py (the [UTC] singleton, other [FixedOffsetTimezone]s with an integral
    number of minutes, the [LOCAL] singleton), and offsets of 24 hours or more, which Python rejects,
    are not excluded; [mktime] does not overflow; [fold] is ignored. *)
From Verif Require Export NumText.
Open Scope Z_scope.

(** [datetime.date]  /repo/scheme/fields/date.py:3 *)
Record date := Date { d_year : Z; d_month : Z; d_day : Z }.
(** [datetime.time] (naive)  /repo/scheme/fields/time.py:3 *)
Record tod := Tod { t_hour : Z; t_min : Z; t_sec : Z; t_us : Z }.
(** [tzinfo] objects.  /repo/scheme/timezone.py:15-75 *)
Inductive tz := TzUTC | TzFixed (minutes : Z) | TzLocal.
(** [datetime.datetime]  /repo/scheme/fields/datetime.py:3 *)
Record datetime := DateTime { dt_date : date; dt_time : tod; dt_tz : option tz }.

(** Local time zone of the process.  /repo/scheme/timezone.py:8-13 (offsets in seconds) and
    69-72 ([_isdst] as a function of the wall clock, in seconds since 0001-01-01). *)
Record localtz := { lt_std : Z; lt_dst : Z; lt_isdst : Z -> bool }.

(** ** Calendar (datetime.py [_is_leap], [_days_in_month], [_ymd2ord], [_ord2ymd]) *)

(** Leap years, for dates at /repo/scheme/fields/date.py:73 *)
Definition is_leap (y : Z) : bool :=
  (y mod 4 =? 0) && (negb (y mod 100 =? 0) || (y mod 400 =? 0)).

(** Length of a month, for dates at /repo/scheme/fields/date.py:73 *)
Definition days_in_month (y m : Z) : Z :=
  if m =? 2 then (if is_leap y then 29 else 28)
  else if (m =? 4) || (m =? 6) || (m =? 9) || (m =? 11) then 30 else 31.

(** [date(y, m, d)]; [None] is ValueError.  /repo/scheme/fields/date.py:73 *)
Definition mk_date (y m d : Z) : option date :=
  if (1 <=? y) && (y <=? 9999) && (1 <=? m) && (m <=? 12) && (1 <=? d) && (d <=? days_in_month y m)
  then Some (Date y m d) else None.

(** [time(h, m, s)]; [None] is ValueError.  /repo/scheme/fields/time.py:69 *)
Definition mk_tod (h m s us : Z) : option tod :=
  if (0 <=? h) && (h <=? 23) && (0 <=? m) && (m <=? 59) && (0 <=? s) && (s <=? 59)
     && (0 <=? us) && (us <=? 999999)
  then Some (Tod h m s us) else None.

(** Days before a month outside leap years; for [astimezone] at /repo/scheme/fields/datetime.py:77, 83 *)
Definition days_before_month_tab (m : Z) : Z :=
  match m with
  | 1 => 0 | 2 => 31 | 3 => 59 | 4 => 90 | 5 => 120 | 6 => 151 | 7 => 181 | 8 => 212
  | 9 => 243 | 10 => 273 | 11 => 304 | 12 => 334 | _ => 0
  end.

(** 1 or 0: [bool] as a number, for [int(value)] at /repo/scheme/fields/integer.py:51 and the calendar. *)
Definition b2z (b : bool) : Z := if b then 1 else 0.

(** Days before a year; for [astimezone] at /repo/scheme/fields/datetime.py:77, 83 *)
Definition days_before_year (y : Z) : Z :=
  let p := y - 1 in p * 365 + p / 4 - p / 100 + p / 400.

(** Days of a year before a month; for [astimezone] at /repo/scheme/fields/datetime.py:77, 83 *)
Definition days_before_month (y m : Z) : Z :=
  days_before_month_tab m + b2z ((2 <? m) && is_leap y).

(** [date.toordinal()]  For [astimezone] at /repo/scheme/fields/datetime.py:77, 83 *)
Definition ordinal (d : date) : Z :=
  days_before_year (d_year d) + days_before_month (d_year d) (d_month d) + d_day d.

(** [date.fromordinal(n)] without the range check  For [astimezone] at /repo/scheme/fields/datetime.py:77, 83 *)
Definition ord2ymd (n0 : Z) : date :=
  let n := n0 - 1 in
  let n400 := n / 146097 in let n := n mod 146097 in
  let year := n400 * 400 + 1 in
  let n100 := n / 36524 in let n := n mod 36524 in
  let n4 := n / 1461 in let n := n mod 1461 in
  let n1 := n / 365 in let n := n mod 365 in
  let year := year + n100 * 100 + n4 * 4 + n1 in
  if (n1 =? 4) || (n100 =? 4) then Date (year - 1) 12 31
  else
    let leap := (n1 =? 3) && (negb (n4 =? 24) || (n100 =? 3)) in
    let month := (n + 50) / 32 in
    let preceding := days_before_month_tab month + b2z ((2 <? month) && leap) in
    if n <? preceding then
      let month' := month - 1 in
      let dim := (if month' =? 2 then 28
                  else if (month' =? 4) || (month' =? 6) || (month' =? 9) || (month' =? 11) then 30
                  else 31) + b2z ((month' =? 2) && leap) in
      Date year month' (n - (preceding - dim) + 1)
    else Date year month (n - preceding + 1).

(** 9999-12-31  The last day; beyond it [astimezone] overflows: /repo/scheme/fields/datetime.py:77, 83 *)
Definition max_ordinal : Z := 3652059.

(** ** Naive arithmetic *)

(** Seconds since midnight; for [astimezone] at /repo/scheme/fields/datetime.py:77, 83 *)
Definition tod_secs (t : tod) : Z := t_hour t * 3600 + t_min t * 60 + t_sec t.

(** Seconds of the wall clock since 0001-01-01T00:00:00.
    For [astimezone] at /repo/scheme/fields/datetime.py:77, 83 *)
Definition dt_secs (dt : datetime) : Z :=
  (ordinal (dt_date dt) - 1) * 86400 + tod_secs (dt_time dt).

(** The wall clock at [s] seconds with microseconds [us]; [None] is OverflowError.
    For [astimezone] at /repo/scheme/fields/datetime.py:77, 83 *)
Definition of_secs (s us : Z) (z : option tz) : option datetime :=
  let day := s / 86400 + 1 in
  let r := s mod 86400 in
  if (1 <=? day) && (day <=? max_ordinal) then
    Some (DateTime (ord2ymd day) (Tod (r / 3600) (r mod 3600 / 60) (r mod 60) us) z)
  else None.

(** [dt + timedelta(seconds=delta)]; [None] is OverflowError.
    For [astimezone] at /repo/scheme/fields/datetime.py:77, 83 *)
Definition dt_add (dt : datetime) (delta : Z) : option datetime :=
  of_secs (dt_secs dt + delta) (t_us (dt_time dt)) (dt_tz dt).

(** [dt.replace(tzinfo=z)].  /repo/scheme/fields/datetime.py:79, 92 *)
Definition with_tz (dt : datetime) (z : option tz) : datetime :=
  DateTime (dt_date dt) (dt_time dt) z.

(** [tzinfo.utcoffset(dt)] in seconds.  /repo/scheme/timezone.py:47-48, 63-67 *)
Definition utcoffset (L : localtz) (z : tz) (secs : Z) : Z :=
  match z with
  | TzUTC => 0
  | TzFixed m => m * 60
  | TzLocal => if lt_isdst L secs then lt_dst L else lt_std L
  end.

(** [tzinfo.dst(dt)] in seconds.  /repo/scheme/timezone.py:31-32, 54-58 *)
Definition dstoffset (L : localtz) (z : tz) (secs : Z) : Z :=
  match z with
  | TzLocal => if lt_isdst L secs then lt_dst L - lt_std L else 0
  | _ => 0
  end.

(** [tzinfo.fromutc(dt)] (datetime.py default implementation).
    For [astimezone] at /repo/scheme/fields/datetime.py:77, 83 *)
Definition fromutc (L : localtz) (z : tz) (dt : datetime) : option datetime :=
  let s := dt_secs dt in
  let delta := utcoffset L z s - dstoffset L z s in
  match dt_add dt delta with
  | None => None
  | Some dt' => dt_add dt' (dstoffset L z (dt_secs dt'))
  end.

(** [dt.astimezone(z)] for an aware [dt] whose zone object is not [z].
    /repo/scheme/fields/datetime.py:77, 83 *)
Definition astimezone (L : localtz) (dt : datetime) (from z : tz) : option datetime :=
  match dt_add dt (- utcoffset L from (dt_secs dt)) with
  | None => None
  | Some u => fromutc L z (with_tz u (Some z))
  end.

(** [tzinfo is timezone].  /repo/scheme/fields/datetime.py:74, 82 *)
Definition tz_is (a b : tz) : bool :=      (* object identity of the two singletons *)
  match a, b with TzUTC, TzUTC | TzLocal, TzLocal => true | _, _ => false end.

(** ** Comparisons *)

(** [<] of dates.  /repo/scheme/fields/date.py:82, 87 *)
Definition date_ltb (a b : date) : bool :=
  (d_year a <? d_year b)
  || ((d_year a =? d_year b)
      && ((d_month a <? d_month b)
          || ((d_month a =? d_month b) && (d_day a <? d_day b)))).

(** [==] of dates.  /repo/scheme/field.py:462 *)
Definition date_eqb (a b : date) : bool :=
  (d_year a =? d_year b) && (d_month a =? d_month b) && (d_day a =? d_day b).

(** [==] of times.  /repo/scheme/field.py:462 *)
Definition tod_eqb (a b : tod) : bool :=
  (t_hour a =? t_hour b) && (t_min a =? t_min b) && (t_sec a =? t_sec b) && (t_us a =? t_us b).

(** [<] of times.  /repo/scheme/fields/time.py:80, 85 *)
Definition tod_ltb (a b : tod) : bool :=
  (t_hour a <? t_hour b)
  || ((t_hour a =? t_hour b)
      && ((t_min a <? t_min b)
          || ((t_min a =? t_min b)
              && ((t_sec a <? t_sec b)
                  || ((t_sec a =? t_sec b) && (t_us a <? t_us b)))))).

(** Wall clock comparison: what [<] does on two datetimes with the same [tzinfo] object, or on
    two naive ones.  /repo/scheme/fields/datetime.py:103, 108 *)
Definition wall_ltb (a b : datetime) : bool :=
  date_ltb (dt_date a) (dt_date b)
  || (date_eqb (dt_date a) (dt_date b) && tod_ltb (dt_time a) (dt_time b)).

(** The same for [==].  /repo/scheme/field.py:462 *)
Definition wall_eqb (a b : datetime) : bool :=
  date_eqb (dt_date a) (dt_date b) && tod_eqb (dt_time a) (dt_time b).

(** The instant of an aware datetime: seconds since 0001-01-01T00:00:00 UTC, and microseconds.
    For comparisons at /repo/scheme/fields/datetime.py:103, 108 *)
Definition instant_secs (L : localtz) (dt : datetime) : option Z :=
  match dt_tz dt with
  | None => None
  | Some z => Some (dt_secs dt - utcoffset L z (dt_secs dt))
  end.

(** [a == b] on datetimes.  /repo/scheme/field.py:462 *)
Definition dt_eqb (L : localtz) (a b : datetime) : bool :=
  match dt_tz a, dt_tz b with
  | None, None => wall_eqb a b
  | Some x, Some y =>
      if tz_is x y then wall_eqb a b
      else (dt_secs a - utcoffset L x (dt_secs a) =? dt_secs b - utcoffset L y (dt_secs b))
           && (t_us (dt_time a) =? t_us (dt_time b))
  | _, _ => false
  end.

(** ** Text *)

(** Two digits, as in [%m], [%d], [%H], [%M], [%S] of [strftime].  /repo/scheme/fields/date.py:66,
    /repo/scheme/fields/time.py:62, /repo/scheme/fields/datetime.py:84 *)
Definition d2 (z : Z) : str := [Z.to_N (48 + z / 10); Z.to_N (48 + z mod 10)].

(** [%Y]: zero padded to four digits or not, depending on the C library ([pad]).
    /repo/scheme/fields/date.py:66, /repo/scheme/fields/datetime.py:84 *)
Definition year_text (pad : bool) (y : Z) : str :=
  if pad then d2 (y / 100) ++ d2 (y mod 100) else Z_text y.

(** [strftime('%Y-%m-%d')].  /repo/scheme/fields/date.py:21, 66 *)
Definition date_text (pad : bool) (d : date) : str :=
  year_text pad (d_year d) ++ $"-" ++ d2 (d_month d) ++ $"-" ++ d2 (d_day d).

(** [strftime('%H:%M:%S')].  /repo/scheme/fields/time.py:17, 62 *)
Definition tod_text (t : tod) : str :=
  d2 (t_hour t) ++ $":" ++ d2 (t_min t) ++ $":" ++ d2 (t_sec t).

(** [strftime('%Y-%m-%dT%H:%M:%SZ')].  /repo/scheme/fields/datetime.py:18, 84 *)
Definition datetime_text (pad : bool) (dt : datetime) : str :=
  date_text pad (dt_date dt) ++ $"T" ++ tod_text (dt_time dt) ++ $"Z".

(** [_strptime]: every directive is an alternation of sequences of character classes, tried in
    order with backtracking (list of successes); the whole text must be consumed.
    For [strptime] at /repo/scheme/fields/date.py:73, time.py:69, datetime.py:91 *)
Definition cclass := N -> option N.       (* digit value of an accepted character *)
(** Digits between two; for [strptime] at /repo/scheme/fields/date.py:73, time.py:69, datetime.py:91 *)
Definition crng (a b : N) : cclass :=
  fun c => if ((48 + a <=? c) && (c <=? 48 + b))%N then Some (c - 48)%N else None.
(** [\d]; for [strptime] at /repo/scheme/fields/date.py:73, time.py:69, datetime.py:91 *)
Definition cany (ud : N -> option N) : cclass :=
  fun c => if is_digit c then Some (c - 48)%N else if (c <? 128)%N then None else ud c.
(** A blank; for [strptime] at /repo/scheme/fields/date.py:73, datetime.py:91 *)
Definition cblank : cclass := fun c => if (c =? 32)%N then Some 0%N else None.

(** One alternative; for [strptime] at /repo/scheme/fields/date.py:73, time.py:69, datetime.py:91 *)
Fixpoint match_seq (alt : list cclass) (s : str) : option (list N * str) :=
  match alt with
  | [] => Some ([], s)
  | k :: alt' =>
      match s with
      | [] => None
      | c :: s' => match k c with
                   | None => None
                   | Some d => match match_seq alt' s' with
                               | Some (ds, r) => Some (d :: ds, r)
                               | None => None
                               end
                   end
      end
  end.

(** A part of a format: a directive or a character.  /repo/scheme/fields/date.py:21, time.py:17,
    datetime.py:18 *)
Inductive fitem := FNum (alts : list (list cclass)) | FLit (c : N).

(** All matches of a directive; for [strptime] at /repo/scheme/fields/date.py:73, time.py:69, datetime.py:91
    *)
Definition match_num (alts : list (list cclass)) (s : str) : list (Z * str) :=
  flat_map (fun alt => match match_seq alt s with
                       | Some (ds, r) => [(Z.of_N (digits_val ds), r)]
                       | None => []
                       end) alts.

(** A literal of the format, compared case-insensitively (the regular expression is compiled with
    IGNORECASE).  For [strptime] at /repo/scheme/fields/date.py:73, time.py:69, datetime.py:91 *)
Definition match_lit (c : N) (s : str) : option str :=
  match s with
  | x :: s' => if (lower_ascii x =? lower_ascii c)%N then Some s' else None
  | [] => None
  end.

(** All matches of a format; for [strptime] at /repo/scheme/fields/date.py:73, time.py:69, datetime.py:91 *)
Fixpoint match_fmt (f : list fitem) (s : str) : list (list Z * str) :=
  match f with
  | [] => [([], s)]
  | FLit c :: f' => match match_lit c s with Some s' => match_fmt f' s' | None => [] end
  | FNum alts :: f' =>
      flat_map (fun zr => map (fun lr => (fst zr :: fst lr, snd lr)) (match_fmt f' (snd zr)))
               (match_num alts s)
  end.

(** [strptime(text, format)] for the numeric directives; [None] is ValueError.
    /repo/scheme/fields/date.py:73, time.py:69, datetime.py:91 *)
Definition strptime (f : list fitem) (s : str) : option (list Z) :=
  match match_fmt f s with
  | (zs, []) :: _ => Some zs
  | _ => None
  end.

(** [%Y].  /repo/scheme/fields/date.py:21, datetime.py:18 *)
Definition fY ud := FNum [[cany ud; cany ud; cany ud; cany ud]].
(** [%m].  /repo/scheme/fields/date.py:21, datetime.py:18 *)
Definition fm := FNum [[crng 1 1; crng 0 2]; [crng 0 0; crng 1 9]; [crng 1 9]].
(** [%d].  /repo/scheme/fields/date.py:21, datetime.py:18 *)
Definition fd ud := FNum [[crng 3 3; crng 0 1]; [crng 1 2; cany ud]; [crng 0 0; crng 1 9]; [crng 1 9];
                          [cblank; crng 1 9]].
(** [%H].  /repo/scheme/fields/time.py:17, datetime.py:18 *)
Definition fH ud := FNum [[crng 2 2; crng 0 3]; [crng 0 1; cany ud]; [cany ud]].
(** [%M].  /repo/scheme/fields/time.py:17, datetime.py:18 *)
Definition fM ud := FNum [[crng 0 5; cany ud]; [cany ud]].
(** [%S].  /repo/scheme/fields/time.py:17, datetime.py:18 *)
Definition fS ud := FNum [[crng 6 6; crng 0 1]; [crng 0 5; cany ud]; [cany ud]].

(** ['%Y-%m-%d'].  /repo/scheme/fields/date.py:21 *)
Definition date_fmt ud : list fitem := [fY ud; FLit 45; fm; FLit 45; fd ud].
(** ['%H:%M:%S'].  /repo/scheme/fields/time.py:17 *)
Definition tod_fmt ud : list fitem := [fH ud; FLit 58; fM ud; FLit 58; fS ud].
(** ['%Y-%m-%dT%H:%M:%SZ'].  /repo/scheme/fields/datetime.py:18 *)
Definition datetime_fmt ud : list fitem :=
  date_fmt ud ++ [FLit 84] ++ tod_fmt ud ++ [FLit 90].

(** [date( *strptime(value, '%Y-%m-%d')[:3])].  /repo/scheme/fields/date.py:73 *)
Definition parse_date (ud : N -> option N) (s : str) : option date :=
  match strptime (date_fmt ud) s with
  | Some [y; m; d] => mk_date y m d
  | _ => None
  end.

(** [time( *strptime(value, '%H:%M:%S')[3:6])].  /repo/scheme/fields/time.py:69 *)
Definition parse_tod (ud : N -> option N) (s : str) : option tod :=
  match strptime (tod_fmt ud) s with
  | Some [h; m; x] => mk_tod h m x 0
  | _ => None
  end.

(** [datetime( *strptime(value, '%Y-%m-%dT%H:%M:%SZ')[:6]).replace(tzinfo=UTC)].
    /repo/scheme/fields/datetime.py:91-92 *)
Definition parse_datetime (ud : N -> option N) (s : str) : option datetime :=
  match strptime (datetime_fmt ud) s with
  | Some [y; m; d; h; mi; x] =>
      match mk_date y m d, mk_tod h mi x 0 with
      | Some d1, Some t1 => Some (DateTime d1 t1 (Some TzUTC))
      | _, _ => None
      end
  | _ => None
  end.
