(** Properties C21-C28, C43, C44 (pyslet/iso8601.py).
    The vocabulary of the statements is in IsoSpec.v and IsoTimeSpec.v: [nth_day n] is the [n]th
    day after 0001-01-01 by the Gregorian month lengths, [cal p] the Date object of a day. *)
From Verif Require Import Py Num IsoModel IsoSpec IsoProofs IsoMain IsoWeek IsoTimeModel IsoParseModel IsoStr IsoTrunc IsoTimeSpec IsoTime IsoTimeStr IsoDur.

(** ** C21 *)
(** absolute day numbers count the days of the calendar, from 1; nothing else is accepted but 0 *)
Theorem c21_absolute_day : forall n, Z.of_nat n < max_day ->
  date_absolute (Z.of_nat n + 1) = Ok (cal (nth_day n)) /\ get_absolute_day (cal (nth_day n)) = Ok (Z.of_nat n + 1).
Proof. exact c21_main. Qed.
Print Assumptions c21_absolute_day.
Theorem c21_out_of_range : forall n, n < 0 \/ max_day < n -> date_absolute n = Err DateTimeError.
Proof. exact c21_bad. Qed.
Print Assumptions c21_out_of_range.
(** every complete date that can be built is one of these days, and all of them can be built *)
Theorem c21_dates : forall y m d base,
  (date_calendar base (Some (y / 100)) (Some (y mod 100)) (Some m) (Some d) = Ok (cal (y, m, d)) <->
   exists n, Z.of_nat n < max_day /\ nth_day n = (y, m, d)) /\
  (~ valid (y, m, d) -> date_calendar base (Some (y / 100)) (Some (y mod 100)) (Some m) (Some d) = Err DateTimeError) /\
  (valid (y, m, d) <-> exists n, Z.of_nat n < max_day /\ nth_day n = (y, m, d)).
Proof.
  intros y m d b. assert (E : valid (y, m, d) <-> exists n, Z.of_nat n < max_day /\ nth_day n = (y, m, d)).
  { rewrite c21_valid. split; intros (n & L & H); exists n; auto. }
  rewrite <- E. split; [apply c21_calendar|]. split; [apply c21_calendar_bad|tauto].
Qed.
Print Assumptions c21_dates.
Theorem c21_date_order : forall i j,
  date_lt (cal (nth_day i)) (cal (nth_day j)) = Some (Ok (i <? j)%nat) /\ date_eq (cal (nth_day i)) (cal (nth_day j)) = Some (i =? j)%nat.
Proof. exact c21_order. Qed.
Print Assumptions c21_date_order.
Example c21_case : nth_day 423 = (2, 2, 28) /\ nth_day 424 = (2, 3, 1) /\ date_absolute 425 = Ok (cal (2, 3, 1)) /\
  Z.of_nat 424 < max_day /\ date_absolute max_day = Ok (cal (9999, 12, 31)).
Proof. repeat split; vm_compute; reflexivity. Qed.
(** Finding: day number 0, which is no day, is silently taken for 0001-01-01 *)
Theorem c21_zero_refuted : date_absolute 0 = Ok (cal (1, 1, 1)).
Proof. reflexivity. Qed.
Print Assumptions c21_zero_refuted.

(** ** C22 *)
Theorem c22_offset : forall n a w k, Z.of_nat n < max_day -> Z.of_nat k < max_day -> Z.of_nat k = Z.of_nat n + a + 7 * w ->
  offset (cal (nth_day n)) 0 0 0 w a = Ok (Some (cal (nth_day k))).
Proof. exact c22_main. Qed.
Print Assumptions c22_offset.
Theorem c22_compose : forall n a k b w, Z.of_nat n < max_day -> Z.of_nat k < max_day -> Z.of_nat k = Z.of_nat n + a ->
  offset (cal (nth_day k)) 0 0 0 w b = offset (cal (nth_day n)) 0 0 0 w (a + b).
Proof. intros n a k b w L K E. rewrite !offset_complete by auto. f_equal. f_equal. lia. Qed.
Print Assumptions c22_compose.
Theorem c22_overflow_partial : forall n a w, Z.of_nat n < max_day ->
  Z.of_nat n + a + 7 * w < -1 \/ max_day <= Z.of_nat n + a + 7 * w ->
  offset (cal (nth_day n)) 0 0 0 w a = Err DateTimeError.
Proof. exact c22_range. Qed.
Print Assumptions c22_overflow_partial.
Theorem c22_units : forall p c y m w a, c <> 0 \/ y <> 0 \/ m <> 0 -> offset (cal p) c y m w a = Err DateTimeError.
Proof. exact c22_mixed. Qed.
Print Assumptions c22_units.
Example c22_case : offset (cal (nth_day 58)) 0 0 0 1 (-6) = Ok (Some (cal (nth_day 59))) /\ nth_day 59 = (1, 3, 1).
Proof. split; vm_compute; reflexivity. Qed.
(** Finding: the day before 0001-01-01 is 0001-01-01 *)
Theorem c22_day_zero_refuted : forall n a w, Z.of_nat n < max_day -> Z.of_nat n + a + 7 * w = -1 ->
  offset (cal (nth_day n)) 0 0 0 w a = Ok (Some (cal (nth_day 0))).
Proof. exact c22_zero. Qed.
Print Assumptions c22_day_zero_refuted.

(** ** C23 *)
Theorem c23_ordinal : forall y m d base, valid (y, m, d) ->
  get_ordinal_day (cal (y, m, d)) = Ok (y / 100, Some (y mod 100), Some (ordinal (y, m, d))) /\
  date_ordinal base (Some (y / 100)) (Some (y mod 100)) (ordinal (y, m, d)) = Ok (cal (y, m, d)).
Proof. intros y m d b V. split; [apply get_ordinal_cal; apply V|apply ordinal_roundtrip; auto]. Qed.
Print Assumptions c23_ordinal.
(** only days of the year are accepted (zero apart, see below) *)
Theorem c23_ordinal_only : forall y o base r, o <> 0 -> date_ordinal base (Some (y / 100)) (Some (y mod 100)) o = Ok r ->
  exists m d, r = cal (y, m, d) /\ valid (y, m, d) /\ ordinal (y, m, d) = o.
Proof. exact (fun y o base r => ordinal_sound y o base r). Qed.
Print Assumptions c23_ordinal_only.
Theorem c23_week : forall n base, Z.of_nat n < max_day -> exists Y w wd, iso_week n Y w wd /\
  get_week_day (cal (nth_day n)) = Ok (Y / 100, Some ((Y mod 100) / 10), Some (Y mod 10), Some w, Some wd) /\
  date_week base (Some (Y / 100)) (Some ((Y mod 100) / 10)) (Some (Y mod 10)) (Some w) (Some wd) = Ok (cal (nth_day n)).
Proof.
  intros n b L. destruct (get_week_spec n) as (Y & w & wd & I & E). exists Y, w, wd. repeat split; try apply I; auto using week_roundtrip.
Qed.
Print Assumptions c23_week.
Theorem c23_week_only : forall base c dec y w wd r, 1 <= w -> date_week base (Some c) (Some dec) (Some y) (Some w) (Some wd) = Ok r ->
  exists n, Z.of_nat n < max_day /\ r = cal (nth_day n) /\ iso_week n (c * 100 + dec * 10 + y) w wd.
Proof. intros b c dec y w wd r W H. destruct (week_sound b c dec y w wd r W H) as (n & L & E & I & _). eauto. Qed.
Print Assumptions c23_week_only.
Theorem c23_julian : forall n, Z.of_nat n < max_day ->
  get_julian_day (cal (nth_day n)) = Ok (jnth_day n) /\ (let '(y, m, d) := jnth_day n in from_julian y m d = Ok (cal (nth_day n))).
Proof. exact julian_ok. Qed.
Print Assumptions c23_julian.
(** the day of the week advances from day to day, starting on a Monday *)
Theorem c23_day_of_week : forall n, let '(y, m, d) := nth_day n in day_of_week y m d = Z.of_nat n mod 7 + 1.
Proof.
  intros n. destruct (nth_day_ok n) as [V D]. destruct (nth_day n) as [[y m] d]. rewrite dow_eq by auto. rewrite D. f_equal. f_equal. lia.
Qed.
Print Assumptions c23_day_of_week.
Example c23_case : nth_day 364 = (1, 12, 31) /\ get_week_day (cal (1, 12, 31)) = Ok (0, Some 0, Some 2, Some 1, Some 1) /\
  iso_week 364 2 1 1 /\ get_julian_day (cal (1, 12, 31)) = Ok (2, 1, 2).
Proof.
  split; [vm_compute; reflexivity|]. split; [vm_compute; reflexivity|]. split; [|vm_compute; reflexivity].
  destruct (get_week_spec 364) as (Y & w & wd & I & E).
  assert (E' : get_week_day (cal (nth_day 364)) = Ok (0, Some 0, Some 2, Some 1, Some 1)) by (vm_compute; reflexivity).
  rewrite E' in E. injection E as E1 E2 E3 E4 E5. subst w wd. assert (Y = 2) by (clear -E1 E2 E3; Z.to_euclidean_division_equations; lia). subst. exact I.
Qed.
(** Finding: day of year 0, week 0 are not rejected *)
Theorem c23_zero_refuted : date_ordinal None (Some 19) (Some 69) 0 = Ok (year_date 1969) /\
  date_week None (Some 19) (Some 6) (Some 9) (Some 0) None = Ok (week_date 1969 0).
Proof. split; vm_compute; reflexivity. Qed.
Print Assumptions c23_zero_refuted.

(** ** C24 *)
(** the text of a day and of a reduced date ([denotes] lists the texts with what they mean) *)
Theorem c24_format : forall n basic, Z.of_nat n < max_day -> exists y m d Y w wd,
  nth_day n = (y, m, d) /\ iso_week n Y w wd /\
  get_calendar_string (cal (nth_day n)) basic NoTruncation = Ok (d4 y ++ hy basic ++ d2 m ++ hy basic ++ d2 d) /\
  get_ordinal_string (cal (nth_day n)) basic NoTruncation = Ok (d4 y ++ hy basic ++ d3 (ordinal (y, m, d))) /\
  get_week_string (cal (nth_day n)) basic NoTruncation = Ok (d4 Y ++ hy basic ++ lit "W" ++ d2 w ++ hy basic ++ d1 wd).
Proof.
  intros n basic L. destruct (fmt_week n basic L) as (Y & w & wd & I & F). pose proof (nth_valid n L) as V.
  destruct (nth_day n) as [[y m] d] eqn:E. exists y, m, d, Y, w, wd. repeat split; try apply I; auto using fmt_calendar, fmt_ordinal.
Qed.
Print Assumptions c24_format.
Theorem c24_format_reduced : forall basic y m w c,
  (year_ok y -> 1 <= m <= 12 -> get_calendar_string (month_date y m) basic NoTruncation = Ok (d4 y ++ lit "-" ++ d2 m)) /\
  (year_ok y -> get_calendar_string (year_date y) basic NoTruncation = Ok (d4 y)) /\
  (0 <= c <= 99 -> get_calendar_string (century_date c) basic NoTruncation = Ok (d2 c)) /\
  (week_ok y w -> get_week_string (week_date y w) basic NoTruncation = Ok (d4 y ++ hy basic ++ lit "W" ++ d2 w)).
Proof. intros. repeat split; auto using fmt_month, fmt_year, fmt_century, fmt_weekonly. Qed.
Print Assumptions c24_format_reduced.
Theorem c24_parse : forall t d base, denotes t d -> date_from_str t base = Ok d.
Proof. exact denotes_parse. Qed.
Print Assumptions c24_parse.
Theorem c24_round_trip : forall n basic base, Z.of_nat n < max_day ->
  (exists s, get_calendar_string (cal (nth_day n)) basic NoTruncation = Ok s /\ date_from_str s base = Ok (cal (nth_day n))) /\
  (exists s, get_ordinal_string (cal (nth_day n)) basic NoTruncation = Ok s /\ date_from_str s base = Ok (cal (nth_day n))) /\
  (exists s, get_week_string (cal (nth_day n)) basic NoTruncation = Ok s /\ date_from_str s base = Ok (cal (nth_day n))).
Proof.
  intros n basic base L. destruct (c24_format n basic L) as (y & m & d & Y & w & wd & E & I & F1 & F2 & F3). pose proof (nth_valid n L) as V. rewrite E in V.
  split; [|split]; eexists; (split; [eassumption|]); apply denotes_parse; rewrite ?E; try (constructor; auto; fail).
  rewrite <- E. eapply den_weekday; eauto.
Qed.
Print Assumptions c24_round_trip.
(** parsing accepts a prefix that is the text of the date returned, or one of the texts [odd] that denote no date *)
Theorem c24_sound_partial : forall s d, date_from_str s None = Ok d -> exists t r, s = t ++ r /\ (denotes t d \/ odd t).
Proof. exact from_str_sound. Qed.
Print Assumptions c24_sound_partial.
Example c24_case : denotes (lit "0001-W01-1") (cal (1, 1, 1)) /\ date_from_str (lit "19690720") None = Ok (cal (1969, 7, 20)).
Proof.
  split; [|vm_compute; reflexivity]. apply (den_weekday false 0 1 1 1); [vm_compute; reflexivity|]. split; [reflexivity|].
  exists 3%nat, 1, 4. repeat split.
Qed.
(** Findings: texts that denote no date are accepted, trailing text is ignored, and some errors are not DateTimeError *)
Theorem c24_sound_refuted : date_from_str (lit "1969-000") None = Ok (year_date 1969) /\
  date_from_str (lit "1969-W00") None = Ok (week_date 1969 0) /\
  date_from_str (lit "1969-07-20 or so") None = Ok (cal (1969, 7, 20)) /\
  date_from_str (lit "x") None = Err AttributeError /\ date_from_str (lit "-5") None = Err TypeError.
Proof. repeat split; vm_compute; reflexivity. Qed.
Print Assumptions c24_sound_refuted.

(** ** C25 *)
(** YYMMDD, --MMDD, ---DD with a base: the earliest matching day on or after the base *)
Theorem c25_calendar_earliest : forall b yy mm dd r, valid b -> (mm = None -> yy = None) ->
  date_calendar (Some (cal b)) None yy mm (Some dd) = Ok r -> exists p, r = cal p /\ earliest_day (cal_matches yy mm dd) b p.
Proof. exact c25_calendar. Qed.
Print Assumptions c25_calendar_earliest.
(** ... and it is found if there is one, for days up to the 28th *)
Theorem c25_calendar_found_partial : forall b yy mm dd q, valid b -> (mm = None -> yy = None) -> 1 <= dd <= 28 ->
  valid q -> cal_matches yy mm dd q -> ~ ymd_lt q b -> exists r, date_calendar (Some (cal b)) None yy mm (Some dd) = Ok r.
Proof. exact c25_calendar_total. Qed.
Print Assumptions c25_calendar_found_partial.
Theorem c25_month_earliest : forall y m d yy mm r, valid (y, m, d) ->
  date_calendar (Some (cal (y, m, d))) None yy (Some mm) None = Ok r ->
  exists y', r = month_date y' mm /\ year_ok y' /\ 1 <= mm <= 12 /\
    earliest (fun t => given yy (t / 12 mod 100) /\ t mod 12 + 1 = mm) (12 * y + m - 1) (12 * y' + mm - 1).
Proof. exact c25_month. Qed.
Print Assumptions c25_month_earliest.
Theorem c25_year_earliest : forall y m d yy r, valid (y, m, d) -> date_calendar (Some (cal (y, m, d))) None (Some yy) None None = Ok r ->
  exists y', r = year_date y' /\ year_ok y' /\ earliest (fun t => t mod 100 = yy) y y'.
Proof. exact c25_year. Qed.
Print Assumptions c25_year_earliest.
Theorem c25_ordinal_earliest : forall b yy o r, valid b -> o <> 0 -> date_ordinal (Some (cal b)) None yy o = Ok r ->
  exists p, r = cal p /\ earliest_day (ord_matches yy o) b p.
Proof. exact c25_ordinal. Qed.
Print Assumptions c25_ordinal_earliest.
Theorem c25_ordinal_found_partial : forall b yy o q, valid b -> 1 <= o <= 365 -> valid q -> ord_matches yy o q -> ~ ymd_lt q b ->
  exists r, date_ordinal (Some (cal b)) None yy o = Ok r.
Proof. exact c25_ordinal_total. Qed.
Print Assumptions c25_ordinal_found_partial.
Theorem c25_week_earliest : forall n dec yr w wd r, form_ok dec yr w -> (match w with Some w => 1 <= w | None => True end) -> wd <> 0 ->
  Z.of_nat n < max_day -> date_week (Some (cal (nth_day n))) None dec yr w (Some wd) = Ok r ->
  exists k, r = cal (nth_day k) /\ Z.of_nat k < max_day /\ earliest_nat (week_matches dec yr w wd) n k.
Proof. exact c25_week. Qed.
Print Assumptions c25_week_earliest.
Theorem c25_week_found_partial : forall n dec yr w wd k, form_ok dec yr w -> (match w with Some w => 1 <= w <= 52 | None => True end) ->
  Z.of_nat n < max_day -> Z.of_nat k < max_day -> (n <= k)%nat -> week_matches dec yr w wd k ->
  exists r, date_week (Some (cal (nth_day n))) None dec yr w (Some wd) = Ok r.
Proof. exact c25_week_total. Qed.
Print Assumptions c25_week_found_partial.
Theorem c25_weekonly_earliest : forall n Y bw bwd dec yr w r, (dec <> None -> yr <> None) -> 1 <= w ->
  Z.of_nat n < max_day -> iso_week n Y bw bwd -> date_week (Some (cal (nth_day n))) None dec yr (Some w) None = Ok r ->
  exists Y', r = week_date Y' w /\ week_ok Y' w /\
    (given dec (Y' / 10 mod 10) /\ given yr (Y' mod 10)) /\ (Y < Y' \/ Y = Y' /\ bw <= w) /\
    forall Z, given dec (Z / 10 mod 10) /\ given yr (Z mod 10) -> (Y < Z \/ Y = Z /\ bw <= w) -> Y' <= Z.
Proof. exact c25_weekonly. Qed.
Print Assumptions c25_weekonly_earliest.
Example c25_case : valid (1969, 12, 31) /\ date_calendar (Some (cal (1969, 12, 31))) None None (Some 2) (Some 28) = Ok (cal (1970, 2, 28)) /\
  cal_matches None (Some 2) 28 (1970, 2, 28) /\
  date_week (Some (cal (1969, 12, 31))) None None (Some 0) (Some 1) (Some 4) = Ok (cal (1970, 1, 1)).
Proof. repeat split; vm_compute; try reflexivity; discriminate. Qed.
(** Findings: a match exists but is not found: the 31st after a base in February, and 29 February
    (without a year) after a base in a common year *)
Theorem c25_found_refuted :
  date_calendar (Some (cal (1969, 2, 1))) None None None (Some 31) = Err DateTimeError /\ valid (1969, 3, 31) /\ ~ ymd_lt (1969, 3, 31) (1969, 2, 1) /\
  date_calendar (Some (cal (1969, 2, 1))) None None (Some 2) (Some 29) = Err DateTimeError /\ valid (1972, 2, 29) /\ ~ ymd_lt (1972, 2, 29) (1969, 2, 1).
Proof. repeat split; try (vm_compute; reflexivity); try (vm_compute; discriminate); cbn; lia. Qed.
Print Assumptions c25_found_refuted.

(** ** C26 *)
Theorem c26_offset_exact : forall t a b c, is_time t -> t_hour t <= 23 ->
  (c <> 0 -> t_second t <> None) -> (b <> 0 -> t_minute t <> None) ->
  exists t' days, t_offset t a b c = Ok (t', days) /\ is_time t' /\ t_hour t' <= 23 /\ same_zone t' t /\ same_precision t' t /\
    secs t' + 86400 * days = secs t + 3600 * a + 60 * b + c /\ (c <> 0 -> the (t_second t') <= 59).
Proof. exact c26_offset. Qed.
Print Assumptions c26_offset_exact.
(** shift_zone gives the same instant in the new zone *)
Theorem c26_shift_instant : forall t zd zh zm t' ov, is_time t -> zoned t -> nonneg zh -> nonneg zm ->
  shift_zone t (Some zd) zh zm = Ok (t', ov) ->
  is_time t' /\ t_second t' = t_second t /\ same_precision t' t /\ t_zdirection t' = Some zd /\
  east t' = zd * (the zh * 60 + the zm) /\
  60 * t_hour t' + the (t_minute t') + 1440 * ov - east t' = 60 * t_hour t + the (t_minute t) - east t.
Proof. exact c26_shift. Qed.
Print Assumptions c26_shift_instant.
(** ... whenever the local time moves by at most one day *)
Theorem c26_shift_defined_partial : forall t zd zh zm, is_time t -> zoned t -> nonneg zh -> nonneg zm ->
  zd = 0 \/ (zd = 1 \/ zd = -1) /\ zh <> None /\ the zh * 60 + the zm <= 1439 ->
  let z := zd * (the zh * 60 + the zm) - east t in
  (t_minute t = None -> z mod 60 = 0) -> -1440 <= 60 * t_hour t + the (t_minute t) + z < 2880 ->
  exists t' ov, shift_zone t (Some zd) zh zm = Ok (t', ov).
Proof. exact c26_shift_total. Qed.
Print Assumptions c26_shift_defined_partial.
Example c26_case : let t := mkt 23 (Some 59) (Some 60) (Some 1) (Some 330) in is_time t /\ zoned t /\
  t_offset t 0 0 (-86401) = Ok (mkt 23 (Some 59) (Some 59) (Some 1) (Some 330), -1) /\
  shift_zone t (Some (-1)) (Some 5) (Some 0) = Ok (mkt 13 (Some 29) (Some 60) (Some (-1)) (Some 300), 0).
Proof.
  cbv zeta. split; [|split; [discriminate|split; vm_compute; reflexivity]].
  exists 23, (Some 59), (Some 60), (Some 1), (Some 5), (Some 30). split; [vm_compute; reflexivity|]. split; [discriminate|]. cbn. lia.
Qed.
(** Findings: 24:00:00 cannot be offset by minutes; a shift between far zones raises instead of
    moving two days *)
Theorem c26_total_refuted : t_offset (mkt 24 (Some 0) (Some 0) None None) 0 5 0 = Err DateTimeError /\
  shift_zone (mkt 0 (Some 0) (Some 0) (Some 1) (Some 1439)) (Some (-1)) (Some 23) (Some 59) = Err DateTimeError.
Proof. split; vm_compute; reflexivity. Qed.
Print Assumptions c26_total_refuted.

(** ** C27 *)
Theorem c27_compare : forall n t k u, comparable n t -> comparable k u -> same_precision t u ->
  tp_eq (tp_at n t) (tp_at k u) = Ok (Some (inst_eq n t k u)) /\ tp_lt (tp_at n t) (tp_at k u) = Ok (Some (Ok (inst_lt n t k u))).
Proof. exact c27_main. Qed.
Print Assumptions c27_compare.
(** seconds from 1970-01-01T00:00:00Z; a leap second counts as the second before *)
Theorem c27_unix_time : forall n t, comparable n t -> t_second t <> None ->
  get_unixtime (tp_at n t) = Ok (60 * (utc_minutes n t - 1440 * unix_day) + Z.min 59 (the (t_second t))).
Proof. exact c27_unix. Qed.
Print Assumptions c27_unix_time.
Theorem c27_from_unix_time : forall x, 0 <= x + 86400 * unix_day < 86400 * max_day ->
  exists n t, from_unix_time x = Ok (tp_at n t) /\ comparable n t /\ t_second t <> None /\ the (t_second t) <= 59 /\ t_hour t <= 23 /\ t_zdirection t = Some 0 /\
    get_unixtime (tp_at n t) = Ok x.
Proof. exact c27_from_unix. Qed.
Print Assumptions c27_from_unix_time.
Theorem c27_inverse : forall n t, comparable n t -> t_second t <> None -> the (t_second t) <= 59 ->
  exists x q, get_unixtime (tp_at n t) = Ok x /\ from_unix_time x = Ok q /\ tp_eq (tp_at n t) q = Ok (Some true).
Proof. exact c27_unix_inverse. Qed.
Print Assumptions c27_inverse.
Theorem c27_epoch : exists n, nth_day n = (1970, 1, 1) /\ Z.of_nat n = unix_day.
Proof. exact epoch_day. Qed.
Print Assumptions c27_epoch.
Example c27_case : let t := mkt 0 (Some 30) (Some 0) (Some 1) (Some 60) in comparable 1 t /\
  tp_eq (tp_at 1 t) (tp_at 0 (mkt 23 (Some 30) (Some 0) (Some 0) (Some 0))) = Ok (Some true).
Proof.
  cbv zeta. split; [|vm_compute; reflexivity]. unfold comparable. split.
  { exists 0, (Some 30), (Some 0), (Some 1), (Some 1), (Some 0). split; [vm_compute; reflexivity|]. split; [discriminate|]. cbn. lia. }
  split; [discriminate|]. split; [discriminate|]. split; [left; cbn; lia|]. split; [vm_compute; reflexivity|]. unfold utc_in_range. vm_compute. split; [discriminate|reflexivity].
Qed.
(** Findings: in UTC, 24:00 is not the next day's 00:00; an instant before 0001-01-01T00:00Z is taken for one on 0001-01-01 *)
Theorem c27_midnight_refuted :
  tp_eq (tp_at 0 (mkt 24 (Some 0) (Some 0) (Some 0) (Some 0))) (tp_at 1 (mkt 0 (Some 0) (Some 0) (Some 0) (Some 0))) = Ok (Some false) /\
  tp_eq (tp_at 0 (mkt 0 (Some 0) (Some 0) (Some 1) (Some 60))) (tp_at 0 (mkt 23 (Some 0) (Some 0) (Some 0) (Some 0))) = Ok (Some true).
Proof. split; vm_compute; reflexivity. Qed.
Print Assumptions c27_midnight_refuted.

(** ** C28 *)
(** [graded]: non-negative components from the years down to the precision of the duration *)
Theorem c28_round_trip : forall y mo d h mi s truncate_zeros, y <> None -> graded [y; mo; d; h; mi; s] ->
  exists t, duration_string (DCal y mo d h mi s) truncate_zeros = Ok t /\ duration_from_string t = Ok (DCal y mo d h mi s).
Proof. exact c28_back. Qed.
Print Assumptions c28_round_trip.
Theorem c28_text : forall y mo d h mi s truncate_zeros, y <> None -> graded [y; mo; d; h; mi; s] ->
  exists t, duration_string (DCal y mo d h mi s) truncate_zeros = Ok t /\ dur_denotes t (DCal y mo d h mi s).
Proof. exact c28_roundtrip. Qed.
Print Assumptions c28_text.
Theorem c28_parse : forall t d, dur_denotes t d -> duration_from_string t = Ok d.
Proof. exact dur_parse. Qed.
Print Assumptions c28_parse.
(** designators in order, each after its digits, at least one: but only on a prefix *)
Theorem c28_sound_partial : forall s d, duration_from_string s = Ok d -> exists t r, s = t ++ r /\ dur_denotes t d.
Proof. exact c28_sound. Qed.
Print Assumptions c28_sound_partial.
Example c28_case : graded [Some 0; Some 2; Some 0; Some 12; None; None] /\
  duration_string (DCal (Some 0) (Some 2) (Some 0) (Some 12) None None) true = Ok (lit "P2M0DT12H") /\
  duration_from_string (lit "P2M0DT12H") = Ok (DCal (Some 0) (Some 2) (Some 0) (Some 12) None None) /\
  duration_from_string (lit "P2M0DT") = Err DateTimeError /\ duration_from_string (lit "P") = Err DateTimeError.
Proof. split; [cbn; repeat constructor; lia|]. repeat split; vm_compute; reflexivity. Qed.
(** Findings: designators out of order end the duration instead of being rejected, weeks cannot
    be formatted, digits without a designator raise TypeError *)
Theorem c28_order_refuted : duration_from_string (lit "P1D2Y") = Ok (DCal (Some 0) (Some 0) (Some 1) None None None) /\
  duration_string (DWeeks 3) true = Err NotImplementedError /\ duration_from_string (lit "P5") = Err TypeError.
Proof. repeat split; vm_compute; reflexivity. Qed.
Print Assumptions c28_order_refuted.

(** ** C43 *)
Theorem c43_month : forall y m c yy mm, 1 <= m <= 12 ->
  offset (month_date y m) c yy mm 0 0 =
  let t := 12 * y + (m - 1) + mm + 12 * yy + 1200 * c in
  if (1 <=? t / 12) && (t / 12 <=? 9999) then Ok (Some (month_date (t / 12) (t mod 12 + 1))) else Err DateTimeError.
Proof. exact offset_month. Qed.
Print Assumptions c43_month.
Theorem c43_year : forall y c yy, offset (year_date y) c yy 0 0 0 =
  let t := y + yy + 100 * c in if (1 <=? t) && (t <=? 9999) then Ok (Some (year_date t)) else Err DateTimeError.
Proof. exact offset_year. Qed.
Print Assumptions c43_year.
(** a week is known by its Monday *)
Theorem c43_week : forall n Y w k, Z.of_nat n < max_day -> iso_week n Y w 1 ->
  (forall n', Z.of_nat n' = Z.of_nat n + 7 * k -> Z.of_nat n' + 3 < max_day -> exists Y' w',
     iso_week n' Y' w' 1 /\ offset (week_date Y w) 0 0 0 k 0 = Ok (Some (week_date Y' w'))) /\
  (Z.of_nat n + 7 * k < 0 \/ max_day <= Z.of_nat n + 7 * k + 3 -> offset (week_date Y w) 0 0 0 k 0 = Err DateTimeError).
Proof. exact offset_week. Qed.
Print Assumptions c43_week.
(** smaller units than the precision are rejected *)
Theorem c43_units : forall y m w c yy mm ww dd,
  (ww <> 0 \/ dd <> 0 -> offset (month_date y m) c yy mm ww dd = Err DateTimeError) /\
  (mm <> 0 \/ ww <> 0 \/ dd <> 0 -> offset (year_date y) c yy mm ww dd = Err DateTimeError) /\
  (dd <> 0 -> offset (week_date y w) c yy mm ww dd = Err DateTimeError).
Proof.
  intros. unfold offset. cbn [get_precision month_date year_date week_date d_day d_month d_year d_week d_century]. unfold z_true.
  repeat split; intros H; destruct (Z.eqb_spec mm 0), (Z.eqb_spec ww 0), (Z.eqb_spec dd 0); cbn [negb andb]; try reflexivity; exfalso; lia.
Qed.
Print Assumptions c43_units.
Example c43_case : offset (month_date 1969 7) 1 (-2) 30 0 0 = Ok (Some (month_date 2070 1)) /\ offset (week_date 1 1) 0 0 0 52 0 = Ok (Some (week_date 2 1)) /\ iso_week 0 1 1 1.
Proof. split; [vm_compute; reflexivity|]. split; [vm_compute; reflexivity|]. split; [reflexivity|]. exists 3%nat, 1, 4. repeat split. Qed.
(** Finding: offset of a century is None *)
Theorem c43_century_refuted : forall k, offset (century_date 19) k 0 0 0 0 = Ok None.
Proof. reflexivity. Qed.
Print Assumptions c43_century_refuted.

(** ** C44 *)
Theorem c44_time_round_trip : forall basic short t, is_time t ->
  t_get_string t basic NoTruncation (zp short) = Ok (time_text basic short t) /\ time_from_str (time_text basic short t) None = Ok t.
Proof. exact c44_time. Qed.
Print Assumptions c44_time_round_trip.
Theorem c44_time_reads_partial : forall s t, time_from_str s None = Ok t -> is_time t /\ exists basic r, reads basic s r t.
Proof. exact c44_time_sound. Qed.
Print Assumptions c44_time_reads_partial.
Theorem c44_timepoint_format : forall basic short n t, is_time t -> Z.of_nat n < max_day ->
  exists x1 x2 x3, day_text basic n x1 /\ day_text basic n x2 /\ day_text basic n x3 /\
    tp_string get_calendar_string (tp_at n t) basic NoTruncation (zp short) = Ok (x1 ++ lit "T" ++ time_text basic short t) /\
    tp_string get_ordinal_string (tp_at n t) basic NoTruncation (zp short) = Ok (x2 ++ lit "T" ++ time_text basic short t) /\
    tp_string get_week_string (tp_at n t) basic NoTruncation (zp short) = Ok (x3 ++ lit "T" ++ time_text basic short t).
Proof. exact c44_tp_fmt. Qed.
Print Assumptions c44_timepoint_format.
Theorem c44_timepoint_parse : forall basic short n t x base, is_time t -> Z.of_nat n < max_day -> day_text basic n x ->
  timepoint_from_str (x ++ lit "T" ++ time_text basic short t) base = Ok (tp_at n t).
Proof. exact c44_timepoint. Qed.
Print Assumptions c44_timepoint_parse.
(** basic and extended forms are not mixed *)
Theorem c44_mixed_rejected : forall basic short n t x base, is_time t -> t_minute t <> None -> Z.of_nat n < max_day -> day_text (negb basic) n x ->
  timepoint_from_str (x ++ lit "T" ++ time_text basic short t) base = Err DateTimeError.
Proof. exact c44_mixed. Qed.
Print Assumptions c44_mixed_rejected.
Theorem c44_timepoint_reads_partial : forall s p, timepoint_from_str s None = Ok p ->
  exists x q basic r, s = x ++ lit "T" ++ q /\ (denotes x (tp_date p) \/ odd x) /\ is_time (tp_time p) /\ reads basic (lit "T" ++ q) r (tp_time p).
Proof. exact c44_tp_sound. Qed.
Print Assumptions c44_timepoint_reads_partial.
Example c44_case : let t := mkt 20 (Some 17) (Some 40) (Some (-1)) (Some 300) in is_time t /\
  time_text false true t = lit "20:17:40-05" /\ time_text true false t = lit "201740-0500" /\
  day_text false 58 (lit "0001-02-28") /\ timepoint_from_str (lit "0001-02-28T20:17:40-05") None = Ok (tp_at 58 t).
Proof.
  cbv zeta. split.
  { exists 20, (Some 17), (Some 40), (Some (-1)), (Some 5), (Some 0). split; [vm_compute; reflexivity|]. split; [discriminate|]. cbn. lia. }
  split; [vm_compute; reflexivity|]. split; [vm_compute; reflexivity|]. split; [|vm_compute; reflexivity].
  apply (dt_calendar false 58 1 2 28). vm_compute. reflexivity.
Qed.
(** Findings: trailing text is ignored, zone minutes above 59 are accepted *)
Theorem c44_sound_refuted : time_from_str (lit "12:00+05:99") None = Ok (mkt 12 (Some 0) None (Some 1) (Some 399)) /\
  time_from_str (lit "12:00 noon") None = Ok (mkt 12 (Some 0) None None None).
Proof. split; vm_compute; reflexivity. Qed.
Print Assumptions c44_sound_refuted.
