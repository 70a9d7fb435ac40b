(** Specification vocabulary for the calendar properties (C21-C25, C43-). *)
From Verif Require Import Py IsoModel.

(** The Gregorian calendar *)
Definition leapb (y : Z) : bool :=
  (y mod 4 =? 0) && (negb (y mod 100 =? 0) || (y mod 400 =? 0)).
Definition month_len (y m : Z) : Z :=
  if m =? 2 then (if leapb y then 29 else 28)
  else if (m =? 4) || (m =? 6) || (m =? 9) || (m =? 11) then 30 else 31.
Definition ymd := (Z * Z * Z)%type.
Definition valid_md (p : ymd) : Prop := let '(y, m, d) := p in 1 <= m <= 12 /\ 1 <= d <= month_len y m.
Definition valid (p : ymd) : Prop := let '(y, m, d) := p in 1 <= y <= 9999 /\ valid_md p.
(** the day after *)
Definition next_day (p : ymd) : ymd :=
  let '(y, m, d) := p in
  if d <? month_len y m then (y, m, d + 1)
  else if m <? 12 then (y, m + 1, 1)
  else (y + 1, 1, 1).
(** the day [n] days after 0001-01-01 *)
Definition nth_day (n : nat) : ymd := Nat.iter n next_day (1, 1, 1).
(** the Date object for a calendar day *)
Definition cal (p : ymd) : date :=
  let '(y, m, d) := p in mkd (y / 100) (Some (y mod 100)) (Some m) None (Some d).
(** number of days in years 1..9999 *)
Definition max_day : Z := 3652059.
(** order of days *)
Definition ymd_lt (p q : ymd) : Prop :=
  let '(y, m, d) := p in let '(y', m', d') := q in
  y < y' \/ (y = y' /\ (m < m' \/ (m = m' /\ d < d'))).

(** number of days in a year, and the day's number within its year (1 = 1 January) *)
Definition year_len (y : Z) : Z := if leapb y then 366 else 365.
Fixpoint days_before (y : Z) (m : nat) : Z :=
  match m with O => 0 | S k => days_before y k + month_len y (Z.of_nat m) end.
Definition ordinal (p : ymd) : Z := let '(y, m, d) := p in days_before y (Z.to_nat (m - 1)) + d.

(** day of the week of the [n]th day after 0001-01-01, which was a Monday (1) *)
Definition weekday (n : nat) : Z := Z.of_nat n mod 7 + 1.
(** ISO 8601 week date of the day number [n]: the week belongs to the year of its Thursday, and
    is numbered by the Thursdays of that year *)
Definition iso_week (n : nat) (year week wday : Z) : Prop :=
  wday = weekday n /\
  exists t m d, Z.of_nat t = Z.of_nat n - wday + 4 /\ nth_day t = (year, m, d) /\
    week = (ordinal (year, m, d) - 1) / 7 + 1.

(** The Julian calendar: every fourth year is a leap year; 0001-01-01 Gregorian is 0001-01-03 Julian *)
Definition jmonth_len (y m : Z) : Z :=
  if m =? 2 then (if y mod 4 =? 0 then 29 else 28)
  else if (m =? 4) || (m =? 6) || (m =? 9) || (m =? 11) then 30 else 31.
Definition jnext_day (p : ymd) : ymd :=
  let '(y, m, d) := p in
  if d <? jmonth_len y m then (y, m, d + 1)
  else if m <? 12 then (y, m + 1, 1)
  else (y + 1, 1, 1).
Definition jnth_day (n : nat) : ymd := Nat.iter n jnext_day (1, 1, 3).

(** ** Texts that denote dates (ISO 8601, untruncated) *)
(** one, two and three decimal digits *)
Definition d1 (n : Z) : str := [48 + n].
Definition d2 (n : Z) : str := [48 + n / 10; 48 + n mod 10].
Definition d3 (n : Z) : str := [48 + n / 100; 48 + n / 10 mod 10; 48 + n mod 10].
Definition d4 (y : Z) : str := d2 (y / 100) ++ d2 (y mod 100).
(** hyphen in extended form *)
Definition hy (basic : bool) : str := if basic then [] else lit "-".
(** reduced precision objects *)
Definition month_date (y m : Z) : date := mkd (y / 100) (Some (y mod 100)) (Some m) None None.
Definition year_date (y : Z) : date := mkd (y / 100) (Some (y mod 100)) None None None.
Definition century_date (c : Z) : date := mkd c None None None None.
Definition week_date (y w : Z) : date := mkd (y / 100) (Some (y mod 100)) None (Some w) None.
Definition year_ok (y : Z) : Prop := 1 <= y <= 9999.
(** an ISO week that exists: one of its days is in the calendar *)
Definition week_ok (y w : Z) : Prop := year_ok y /\ exists n, iso_week n y w 4.
Inductive denotes : str -> date -> Prop :=
| den_day basic y m d : valid (y, m, d) ->
    denotes (d4 y ++ hy basic ++ d2 m ++ hy basic ++ d2 d) (cal (y, m, d))
| den_month y m : year_ok y -> 1 <= m <= 12 -> denotes (d4 y ++ lit "-" ++ d2 m) (month_date y m)
| den_year y : year_ok y -> denotes (d4 y) (year_date y)
| den_century c : 0 <= c <= 99 -> denotes (d2 c) (century_date c)
| den_ordinal basic y m d : valid (y, m, d) ->
    denotes (d4 y ++ hy basic ++ d3 (ordinal (y, m, d))) (cal (y, m, d))
| den_week basic y w : week_ok y w -> denotes (d4 y ++ hy basic ++ lit "W" ++ d2 w) (week_date y w)
| den_weekday basic n y w wd : Z.of_nat n < max_day -> iso_week n y w wd ->
    denotes (d4 y ++ hy basic ++ lit "W" ++ d2 w ++ hy basic ++ d1 wd) (cal (nth_day n)).
(** texts that denote nothing although the parser accepts them: day 000, week 00, weekday 0 *)
Inductive odd : str -> Prop :=
| odd_day000 basic y : 0 <= y <= 9999 -> odd (d4 y ++ hy basic ++ lit "000")
| odd_week00 basic y : 0 <= y <= 9999 -> odd (d4 y ++ hy basic ++ lit "W00")
| odd_week00d basic y wd : 0 <= y <= 9999 -> 0 <= wd <= 9 -> odd (d4 y ++ hy basic ++ lit "W00" ++ hy basic ++ d1 wd)
| odd_trunc t : In t [lit "-000"; lit "-W00"; lit "-W000"; lit "-W00-0"; lit "-W-0"] -> odd t.

(** ** Truncated dates (C25) *)
Definition given {A} (o : option A) (x : A) : Prop := match o with Some v => x = v | None => True end.
(** day [p] has the stated components: year of century, month, day of month *)
Definition cal_matches (yy mm : option Z) (dd : Z) (p : ymd) : Prop :=
  let '(y, m, d) := p in given yy (y mod 100) /\ given mm m /\ d = dd.
(** ... year of century, day of year *)
Definition ord_matches (yy : option Z) (o : Z) (p : ymd) : Prop :=
  let '(y, m, d) := p in given yy (y mod 100) /\ ordinal p = o.
(** the day number [k] has the stated ISO week components: decade of century, year of decade, week, day *)
Definition week_matches (dec yr w : option Z) (wd : Z) (k : nat) : Prop :=
  exists Y w', iso_week k Y w' wd /\ given dec (Y / 10 mod 10) /\ given yr (Y mod 10) /\ given w w'.
(** the earliest day on or after [b] with property [M] *)
Definition earliest_day (M : ymd -> Prop) (b p : ymd) : Prop :=
  valid p /\ M p /\ ~ ymd_lt p b /\ forall q, valid q -> M q -> ~ ymd_lt q b -> ~ ymd_lt q p.
(** the least integer not below [b] with property [M] *)
Definition earliest (M : Z -> Prop) (b n : Z) : Prop := M n /\ b <= n /\ forall k, M k -> b <= k -> n <= k.
(** the four forms of a truncated week date with a day: decade+year+week+day, year+week+day, week+day, day *)
Definition form_ok (dec yr w : option Z) : Prop :=
  match dec, yr, w with
  | Some _, Some _, Some _ | None, Some _, Some _ | None, None, Some _ | None, None, None => True
  | _, _, _ => False
  end.
Definition earliest_nat (M : nat -> Prop) (b n : nat) : Prop := M n /\ (b <= n)%nat /\ forall k, M k -> (b <= k)%nat -> (n <= k)%nat.
