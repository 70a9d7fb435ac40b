(** Specification vocabulary for times, time points and durations (C26-C28, C44). *)
From Verif Require Import Py Num IsoModel IsoSpec IsoTimeModel.

(** a time of day as the constructor makes it: hour, optional minute and second, optional zone
    (direction, hours, minutes) *)
Definition made (t : time) (h : Z) (m s zd zh zm : option Z) : Prop :=
  new_time (Some h) m s zd zh zm = Ok t /\ (m = None -> s = None) /\
  match zh with Some x => 0 <= x | None => True end /\ match zm with Some x => 0 <= x | None => True end.
Definition is_time (t : time) : Prop := exists h m s zd zh zm, made t h m s zd zh zm.
(** seconds since midnight; a component that is not given counts as zero *)
Definition secs (t : time) : Z := 3600 * t_hour t + 60 * the (t_minute t) + the (t_second t).
(** minutes east of UTC *)
Definition east (t : time) : Z := the (t_zdirection t) * the (t_zoffset t).
Definition zoned (t : time) : Prop := t_zdirection t <> None.
Definition same_zone (t u : time) : Prop := t_zdirection t = t_zdirection u /\ t_zoffset t = t_zoffset u.
Definition same_precision (t u : time) : Prop :=
  is_some (t_minute t) = is_some (t_minute u) /\ is_some (t_second t) = is_some (t_second u).

(** an hour or minute of a zone is given without sign *)
Definition nonneg (o : option Z) : Prop := match o with Some x => 0 <= x | None => True end.
(** a time point: day number [n] (0 = 0001-01-01) and a time *)
Definition tp_at (n : nat) (t : time) : timepoint := mktp (cal (nth_day n)) t.
(** minutes from 0001-01-01T00:00 UTC *)
Definition utc_minutes (n : nat) (t : time) : Z := 1440 * Z.of_nat n + 60 * t_hour t + the (t_minute t) - east t.
(** the UTC day on which the instant falls is in the calendar *)
Definition utc_in_range (n : nat) (t : time) : Prop := 0 <= utc_minutes n t < 1440 * max_day.
(** a zoned time point with at least minutes, not 24:00 in UTC, whose UTC day is in the calendar *)
Definition comparable (n : nat) (t : time) : Prop :=
  is_time t /\ zoned t /\ t_minute t <> None /\ (t_hour t <= 23 \/ east t <> 0) /\ Z.of_nat n < max_day /\ utc_in_range n t.
(** order of instants: minute, then second (60 is a leap second) *)
Definition inst_lt (n : nat) (t : time) (k : nat) (u : time) : bool :=
  (utc_minutes n t <? utc_minutes k u) || ((utc_minutes n t =? utc_minutes k u) && (the (t_second t) <? the (t_second u))).
Definition inst_eq (n : nat) (t : time) (k : nat) (u : time) : bool :=
  (utc_minutes n t =? utc_minutes k u) && (the (t_second t) =? the (t_second u)).
(** day number of 1970-01-01 *)
Definition unix_day : Z := 719162.

(** ** Texts of times *)
Definition co (basic : bool) : str := if basic then [] else lit ":".
(** the zone designator of a time: nothing, Z, +hh:mm or (only when the minutes are zero) +hh *)
Definition zone_text (basic short : bool) (t : time) : str :=
  match t_zdirection t, t_zoffset t with
  | Some zd, Some o =>
    if zd =? 0 then lit "Z"
    else (if 0 <? zd then lit "+" else lit "-") ++ d2 (o / 60) ++
         (if short && (o mod 60 =? 0) then [] else co basic ++ d2 (o mod 60))
  | _, _ => []
  end.
Definition time_text (basic short : bool) (t : time) : str :=
  d2 (t_hour t) ++
  match t_minute t with
  | None => []
  | Some m => co basic ++ d2 m ++ match t_second t with None => [] | Some s => co basic ++ d2 s end
  end ++ zone_text basic short t.
(** the same without the zone *)
Definition local_text (basic : bool) (t : time) : str :=
  time_text basic false (mkt (t_hour t) (t_minute t) (t_second t) None None).
(** zone designators that are no zone although the parser accepts them: 60 or more minutes *)
Definition odd_zone (basic : bool) (z : str) : Prop :=
  exists sign hh mm, (sign = lit "+" \/ sign = lit "-") /\ 0 <= hh <= 99 /\ 60 <= mm <= 99 /\ z = sign ++ d2 hh ++ co basic ++ d2 mm.
(** zone_precision: Precision.Hour or Precision.Complete *)
Definition zp (short : bool) : precision := if short then PHour else PComplete.
(** a text [s] is the text of time [t], perhaps after the designator T, or has an odd zone; then [r] *)
Definition reads (basic : bool) (s r : str) (t : time) : Prop :=
  exists pre short, (pre = [] \/ pre = lit "T") /\
    (s = pre ++ time_text basic short t ++ r \/ exists z, odd_zone basic z /\ s = pre ++ local_text basic t ++ z ++ r).
(** the three texts of day [n]: calendar date, ordinal date, week date *)
Inductive day_text (basic : bool) (n : nat) : str -> Prop :=
| dt_calendar y m d : nth_day n = (y, m, d) -> day_text basic n (d4 y ++ hy basic ++ d2 m ++ hy basic ++ d2 d)
| dt_ordinal y m d : nth_day n = (y, m, d) -> day_text basic n (d4 y ++ hy basic ++ d3 (ordinal (y, m, d)))
| dt_week y w wd : iso_week n y w wd -> day_text basic n (d4 y ++ hy basic ++ lit "W" ++ d2 w ++ hy basic ++ d1 wd).

(** ** Durations *)
Definition digits (ds : str) : Prop := ds <> [] /\ Forall dec_digit ds.
Definition comp (o : option str) (c : string) : str := match o with Some ds => ds ++ lit c | None => [] end.
(** the value of a component: zero if it is omitted and a smaller one is given *)
Definition val (o : option str) (smaller : list (option str)) : option Z :=
  match o with
  | Some ds => Some (decimal ds)
  | None => if existsb is_some smaller then Some 0 else None
  end.
Inductive dur_denotes : str -> duration -> Prop :=
| dd_weeks ds : digits ds -> dur_denotes (lit "P" ++ ds ++ lit "W") (DWeeks (decimal ds))
| dd_cal y mo d h mi s :
    (forall ds, In (Some ds) [y; mo; d; h; mi; s] -> digits ds) ->
    (exists ds, In (Some ds) [y; mo; d; h; mi; s]) ->
    dur_denotes
      (lit "P" ++ comp y "Y" ++ comp mo "M" ++ comp d "D" ++
       (if existsb is_some [h; mi; s] then lit "T" ++ comp h "H" ++ comp mi "M" ++ comp s "S" else []))
      (DCal (val y [mo; d; h; mi; s]) (val mo [d; h; mi; s]) (val d [h; mi; s])
            (val h [mi; s]) (val mi [s]) (val s [])).
(** a calendar duration whose components are given from the years down to some precision *)
Fixpoint graded (l : list (option Z)) : Prop :=
  match l with
  | [] => True
  | Some v :: r => 0 <= v /\ graded r
  | None :: r => Forall (fun x => x = None) r
  end.
