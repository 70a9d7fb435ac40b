(** Model of the calendar part of pyslet/iso8601.py: module functions and class Date.

    A Date is its five attributes.  [century] is never None on a constructed object: every
    branch of the constructor assigns an integer.  Values are integers (the constructor also
    accepts floats, not modelled); the keyword spellings ordinalDay/absoluteDay and the [src]
    argument (a copy) are dropped.  An attribute assigned by the constructor is a component of the
    value threaded through the model. *)
From Verif Require Import Py Num.

Record date := mkd { d_century : Z; d_year : option Z; d_month : option Z; d_week : option Z; d_day : option Z }.

(** iso8601.py 52-54 MONTH_SIZES, MONTH_SIZES_LEAPYEAR, MONTH_OFFSETS *)
Definition month_sizes : list Z := [31; 28; 31; 30; 31; 30; 31; 31; 30; 31; 30; 31].
Definition month_sizes_leapyear : list Z := [31; 29; 31; 30; 31; 30; 31; 31; 30; 31; 30; 31].
Definition month_offsets : list Z := [0; 31; 59; 90; 120; 151; 181; 212; 243; 273; 304; 334].

(** iso8601.py 57-70 [leap_year] *)
Definition leap_year (year : Z) : bool :=
  if negb (year mod 4 =? 0) then false
  else if negb (year mod 100 =? 0) then true
  else if negb (year mod 400 =? 0) then false
  else true.

(** iso8601.py 73-83 [day_of_week]; [month] is always 1..12 where the library calls it *)
Definition day_of_week (year month day : Z) : Z :=
  let num := year * 365 in
  let num := num + year / 4 + 1 in
  let num := num - (year / 100 + 1) in
  let num := num + year / 400 + 1 in
  let num := if (month <? 3) && leap_year year then num - 1 else num in
  (num + nth (Z.to_nat (month - 1)) month_offsets 0 + day + 4) mod 7 + 1.

(** iso8601.py 86-97 [week_count] *)
Definition week_count (year : Z) : Z :=
  let weekday := day_of_week year 1 1 in
  if weekday =? 4 then 53
  else if (weekday =? 3) && leap_year year then 53
  else 52.

(** iso8601.py 140-149 class Precision *)
Inductive precision := PCentury | PYear | PMonth | PWeek | PHour | PMinute | PComplete.

(** comparison of attributes that may be None: TypeError on Python 3 *)
Definition olt (a b : option Z) : res bool :=
  match a, b with Some x, Some y => Ok (x <? y) | _, _ => Err TypeError end.
Definition oeq (a b : option Z) : bool :=
  match a, b with Some x, Some y => x =? y | None, None => true | _, _ => false end.
Definition rand (a : bool) (b : res bool) : res bool := if a then b else Ok false.
Definition ror (a : res bool) (b : res bool) : res bool := let! x := a in if x then Ok true else b.
Definition is_some {A} (o : option A) : bool := match o with Some _ => true | None => false end.
(** Python truth of an optional integer *)
Definition truthy (o : option Z) : bool := match o with Some n => negb (n =? 0) | None => false end.

(** iso8601.py 1032-1035 [Date.complete] *)
Definition complete (d : date) : bool := is_some (d_day d).
(** iso8601.py 1013-1030 [Date.leap_year] *)
Definition date_leap_year (century : Z) (year : option Z) : res bool :=
  match year with
  | None => Err DateTimeError
  | Some y =>
    Ok (if negb (y mod 4 =? 0) then false
        else if negb (y =? 0) then true
        else if negb (century mod 4 =? 0) then false
        else true)
  end.
Definition sizes (leap : bool) : list Z := if leap then month_sizes_leapyear else month_sizes.
(** iso8601.py 413-423, 540-550, 960-977: the loop over the month sizes *)
Fixpoint month_walk (ms : list Z) (month day : Z) : Z * Z :=
  match ms with
  | [] => (month, day)
  | m :: r => if m <? day then month_walk r (month + 1) (day - m) else (month, day)
  end.

(** iso8601.py 364-381 [_add_century], [_add_year], [_add_month] *)
Definition add_century (century : Z) : res Z :=
  if 99 <=? century then Err ValueError else Ok (century + 1).
Definition add_year (century year : Z) : res (Z * Z) :=
  if 99 <=? year then let! c := add_century century in Ok (c, 0) else Ok (century, year + 1).
Definition add_month (century year month : Z) : res (Z * Z * Z) :=
  if 12 <=? month then let! (c, y) := add_year century year in Ok (c, y, 1)
  else Ok (century, year, month + 1).

(** iso8601.py 425-440 [Date.get_ordinal_day] *)
Definition get_ordinal_day (d : date) : res (Z * option Z * option Z) :=
  match d_day d with
  | None =>
    if negb (is_some (d_month d)) && negb (is_some (d_week d)) then Ok (d_century d, d_year d, None)
    else Err DateTimeError
  | Some day =>
    let! leap := date_leap_year (d_century d) (d_year d) in
    match d_month d with
    | None => Err TypeError
    | Some month =>
      Ok (d_century d, d_year d,
          Some (fold_left Z.add (firstn (Z.to_nat (month - 1)) (sizes leap)) day))
    end
  end.

(** iso8601.py 303-312 [Date.get_absolute_day] *)
Definition get_absolute_day (d : date) : res Z :=
  if negb (complete d) then Err DateTimeError
  else match d_year d with
    | None => Err TypeError
    | Some year =>
      let abs_year := d_century d * 100 + year - 1 in
      let! (_, _, od) := get_ordinal_day d in
      match od with
      | None => Err TypeError
      | Some od => Ok (abs_year / 4 - abs_year / 100 + abs_year / 400 + abs_year * 365 + od)
      end
    end.

(** iso8601.py 387-423 [_set_from_ordinal_day] *)
Definition set_from_ordinal_day (century year : option Z) (ordinal_day : Z) (base : option date) : res date :=
  let! (c, y) :=
    match century with
    | Some c => Ok (c, year)
    | None =>
      match base with
      | None => Err DateTimeError
      | Some b =>
        if negb (complete b) then Err DateTimeError
        else
          let! (bc, by_, bo) := get_ordinal_day b in
          match year with
          | None =>
            let! lt := olt (Some ordinal_day) bo in
            if lt then
              match by_ with
              | Some y => let! (c, y) := add_year bc y in Ok (c, Some y)
              | None => Err TypeError
              end
            else Ok (bc, by_)
          | Some y =>
            let! lt := ror (olt year by_) (rand (oeq year by_) (olt (Some ordinal_day) bo)) in
            if lt then let! c := add_century bc in Ok (c, year) else Ok (bc, year)
          end
      end
    end in
  let! leap := date_leap_year c y in
  let (m, dd) := month_walk (sizes leap) 1 ordinal_day in
  Ok (mkd c y (Some m) None (Some dd)).

(** iso8601.py 266-301 [_set_from_absolute_day] *)
Definition set_from_absolute_day (abs_day : Z) : res date :=
  let quad_century := 146097 in
  let century := 36524 in
  let quad_year := 1461 in
  let abs_day := abs_day - 1 in
  let abs_year := 400 * (abs_day / quad_century) in
  let abs_day := abs_day mod quad_century in
  let (abs_year, abs_day) :=
    if abs_day =? quad_century - 1 then (abs_year + 399, 365)
    else
      let abs_year := abs_year + 100 * (abs_day / century) in
      let abs_day := abs_day mod century in
      let abs_year := abs_year + 4 * (abs_day / quad_year) in
      let abs_day := abs_day mod quad_year in
      if abs_day =? quad_year - 1 then (abs_year + 3, 365)
      else (abs_year + abs_day / 365, abs_day mod 365) in
  let abs_year := abs_year + 1 in
  set_from_ordinal_day (Some (abs_year / 100)) (Some (abs_year mod 100)) (abs_day + 1) None.

(** iso8601.py 314-362 [_set_from_calendar_day] *)
Definition set_from_calendar_day (century year month day : option Z) (base : option date) : res date :=
  match century with
  | Some c => Ok (mkd c year month None day)
  | None =>
    match base with
    | None => Err DateTimeError
    | Some b =>
      if negb (complete b) then Err DateTimeError
      else
        let bc := d_century b in
        let by_ := d_year b in
        let bd := match day with None => None | _ => d_day b end in
        let bm := match day, month with None, None => None | _, _ => d_month b end in
        match year with
        | None =>
          match month with
          | None =>
            match day with
            | None => Err ValueError
            | Some dd =>
              let! lt := olt day bd in
              if lt then
                match bm, by_ with
                | Some m, Some y =>
                  let! (c, y, m) := add_month bc y m in Ok (mkd c (Some y) (Some m) None day)
                | Some m, None =>
                  if 12 <=? m then Err TypeError else Ok (mkd bc None (Some (m + 1)) None day)
                | None, _ => Err TypeError
                end
              else Ok (mkd bc by_ bm None day)
            end
          | Some m =>
            let! lt := ror (olt month bm) (rand (oeq month bm && is_some day) (olt day bd)) in
            if lt then
              match by_ with
              | Some y => let! (c, y) := add_year bc y in Ok (mkd c (Some y) month None day)
              | None => Err TypeError
              end
            else Ok (mkd bc by_ month None day)
          end
        | Some y =>
          let! lt := ror (olt year by_)
            (rand (oeq year by_ && is_some month)
              (ror (olt month bm) (rand (oeq month bm && is_some day) (olt day bd)))) in
          if lt then let! c := add_century bc in Ok (mkd c year month None day)
          else Ok (mkd bc year month None day)
        end
    end
  end.

(** iso8601.py 562-605 [Date.get_week_day]: (century, decade, year, week, weekday) *)
Definition get_week_day (d : date) : res (Z * option Z * option Z * option Z * option Z) :=
  match d_day d with
  | None =>
    if truthy (d_week d) then
      match d_year d with
      | Some y => Ok (d_century d, Some (y / 10), Some (y mod 10), d_week d, None)
      | None => Err TypeError
      end
    else match d_month d with
      | None =>
        match d_year d with
        | None => Ok (d_century d, None, None, None, None)
        | Some y => Ok (d_century d, Some (y / 10), Some (y mod 10), None, None)
        end
      | Some _ => Err DateTimeError
      end
  | Some day =>
    let! (century, year, ordinal_day) := get_ordinal_day d in
    match year, ordinal_day, d_month d with
    | Some year, Some ordinal_day, Some month =>
      let year := year + century * 100 in
      let year_length := if leap_year year then 366 else 365 in
      let weekday := day_of_week year month day in
      let thursday := ordinal_day + 4 - weekday in
      let (year, week) :=
        if thursday <? 1 then (year - 1, week_count (year - 1))
        else if year_length <? thursday then (year + 1, 1)
        else
          let year_base := 5 - day_of_week year 1 4 in
          (year, (ordinal_day - year_base) / 7 + 1) in
      Ok (year / 100, Some ((year mod 100) / 10), Some (year mod 10), Some week, Some weekday)
    | _, _, _ => Err TypeError
    end
  end.

(** iso8601.py 555-560 [_add_week]: returns (century, year, week) *)
Definition add_week (century year week : Z) : res (Z * Z * Z) :=
  if week_count (century * 100 + year) <=? week then
    let! (c, y) := add_year century year in Ok (c, y, 1)
  else Ok (century, year, week + 1).

(** iso8601.py 515-553: the conversion to calendar form at the end of [_set_from_week_day] *)
Definition week_to_calendar (century year week day : Z) : res date :=
  let year := century * 100 + year in
  if week_count year <? week then Err DateTimeError
  else
    let day := 4 - day_of_week year 1 4 + (week - 1) * 7 + day in
    let '(year, day, leap) :=
      if day <? 1 then
        let year := year - 1 in
        let leap := leap_year year in
        (year, if leap then day + 366 else day + 365, leap)
      else
        let leap := leap_year year in
        let year_length := if leap then 366 else 365 in
        if year_length <? day then (year + 1, day - year_length, leap_year (year + 1))
        else (year, day, leap) in
    let (m, day) := month_walk (sizes leap) 1 day in
    Ok (mkd (year / 100) (Some (year mod 100)) (Some m) None (Some day)).

(** iso8601.py 442-553 [_set_from_week_day] *)
Definition set_from_week_day (century decade year week weekday : option Z) (base : option date) : res date :=
  let out_of lo hi o := match o with Some x => (x <? lo) || (hi <? x) | None => false end in
  if negb (is_some weekday) && negb (is_some week) then Err DateTimeError
  else if out_of 1 7 weekday then Err DateTimeError
  else if out_of 0 53 week then Err DateTimeError
  else if out_of 0 9 year then Err DateTimeError
  else if out_of 0 9 decade then Err DateTimeError
  else
    let! (c, y, w) :=
      match century with
      | Some c =>
        match decade, year with
        | Some dd, Some y => Ok (c, dd * 10 + y, week)
        | _, _ => Err TypeError
        end
      | None =>
        match base with
        | None => Err DateTimeError
        | Some b =>
          if negb (complete b) then Err DateTimeError
          else
            let! (bc, bdec, by_, bw, bwd) := get_week_day b in
            match bdec, by_, bw with
            | Some bdec, Some by_, Some bw =>
              let bwd := match weekday with None => None | _ => bwd end in
              match decade with
              | None =>
                match year with
                | None =>
                  let y := bdec * 10 + by_ in
                  match week with
                  | None =>
                    let! lt := rand (is_some weekday) (olt weekday bwd) in
                    if lt then let! (c, y, w) := add_week bc y bw in Ok (c, y, Some w)
                    else Ok (bc, y, Some bw)
                  | Some w =>
                    let! lt := ror (olt week (Some bw)) (rand ((w =? bw) && is_some weekday) (olt weekday bwd)) in
                    if lt then let! (c, y) := add_year bc y in Ok (c, y, week) else Ok (bc, y, week)
                  end
                | Some y =>
                  let! lt := ror (Ok (y <? by_)) (rand (y =? by_)
                    (ror (olt week (Some bw)) (rand (oeq week (Some bw) && is_some weekday) (olt weekday bwd)))) in
                  if lt then Ok (bc, y + (bdec + 1) * 10, week) else Ok (bc, y + bdec * 10, week)
                end
              | Some dec =>
                match year with
                | None => Err TypeError
                | Some y =>
                  let y := dec * 10 + y in
                  let by_ := by_ + bdec * 10 in
                  let! lt := ror (Ok (y <? by_)) (rand (y =? by_)
                    (ror (olt week (Some bw)) (rand (oeq week (Some bw) && is_some weekday) (olt weekday bwd)))) in
                  if lt then let! c := add_century bc in Ok (c, y, week) else Ok (bc, y, week)
                end
              end
            | _, _, _ => Err TypeError
            end
        end
      end in
    match weekday with
    | None => Ok (mkd c (Some y) None w None)
    | Some day =>
      match w with
      | None => Err TypeError
      | Some w => week_to_calendar c y w day
      end
    end.

(** iso8601.py 979-1011 [_check_date] *)
Definition check_date (d : date) : res unit :=
  if (d_century d <? 0) || (99 <? d_century d) then Err DateTimeError
  else match d_year d with
    | None => Ok tt
    | Some y =>
      if (y <? 0) || (99 <? y) then Err DateTimeError
      else if (y =? 0) && (d_century d =? 0) then Err DateTimeError
      else
        let year := d_century d * 100 + y in
        if truthy (d_week d) then
          match d_week d with
          | Some w =>
            if (w <? 1) || (week_count year <? w) then Err DateTimeError
            else if is_some (d_month d) then Err DateTimeError
            else Ok tt
          | None => Ok tt
          end
        else match d_month d with
          | None => Ok tt
          | Some m =>
            if (m <? 1) || (12 <? m) then Err DateTimeError
            else match d_day d with
              | None => Ok tt
              | Some day =>
                if (day <? 1) || (nth (Z.to_nat (m - 1)) (sizes (leap_year year)) 0 <? day)
                then Err DateTimeError else Ok tt
              end
          end
    end.

(** the named arguments of the constructor *)
Record date_args := mkda { a_base : option date; a_century : option Z; a_decade : option Z; a_year : option Z;
  a_month : option Z; a_day : option Z; a_week : option Z; a_weekday : option Z; a_ordinal_day : option Z;
  a_absolute_day : option Z }.
Definition no_args : date_args := mkda None None None None None None None None None None.

Definition the (o : option Z) : Z := match o with Some n => n | None => 0 end.
(** iso8601.py 219-264 [Date.__init__] without [src] *)
Definition new_date (a : date_args) : res date :=
  let! d :=
    if truthy (a_absolute_day a) then set_from_absolute_day (the (a_absolute_day a))
    else if truthy (a_decade a) || truthy (a_week a) || truthy (a_weekday a) then
      set_from_week_day (a_century a) (a_decade a) (a_year a) (a_week a) (a_weekday a) (a_base a)
    else if truthy (a_ordinal_day a) then
      set_from_ordinal_day (a_century a) (a_year a) (the (a_ordinal_day a)) (a_base a)
    else if negb (is_some (a_century a)) && negb (is_some (a_base a)) then
      if is_some (a_year a) || is_some (a_month a) || is_some (a_day a) then Err DateTimeError
      else Ok (mkd 0 (Some 1) (Some 1) None (Some 1))
    else set_from_calendar_day (a_century a) (a_year a) (a_month a) (a_day a) (a_base a) in
  let! _ := check_date d in
  Ok d.

(** the constructor forms of the documentation *)
Definition date_absolute (n : Z) : res date :=
  new_date (mkda None None None None None None None None None (Some n)).
Definition date_calendar (base : option date) (century year month day : option Z) : res date :=
  new_date (mkda base century None year month day None None None None).
Definition date_ordinal (base : option date) (century year : option Z) (o : Z) : res date :=
  new_date (mkda base century None year None None None None (Some o) None).
Definition date_week (base : option date) (century decade year week weekday : option Z) : res date :=
  new_date (mkda base century decade year None None week weekday None None).

(** iso8601.py 1037-1054 [Date.get_precision]; None is impossible *)
Definition get_precision (d : date) : precision :=
  match d_day d with
  | Some _ => PComplete
  | None =>
    match d_month d with
    | Some _ => PMonth
    | None =>
      match d_year d with
      | None => PCentury
      | Some _ => match d_week d with None => PYear | Some _ => PWeek end
      end
    end
  end.

(** iso8601.py 665-678: the loop normalising a week number, on fuel *)
Fixpoint week_loop (fuel : nat) (year week : Z) : res (Z * Z) :=
  match fuel with
  | O => Err Timeout
  | S f =>
    if week <? 1 then week_loop f (year - 1) (week + week_count (year - 1))
    else if week_count year <? week then week_loop f (year + 1) (week - week_count year)
    else Ok (year, week)
  end.
Definition z_true (n : Z) : bool := negb (n =? 0).
(** iso8601.py 629-709 [Date.offset]; the result None is the implicit return for century
    precision *)
Definition offset (d : date) (centuries years months weeks days : Z) : res (option date) :=
  match get_precision d with
  | PComplete =>
    if negb (z_true months) && negb (z_true years) && negb (z_true centuries) then
      let! base_day := get_absolute_day d in
      rmap Some (date_absolute (base_day + (days + 7 * weeks)))
    else Err DateTimeError
  | PWeek =>
    if negb (z_true days) && negb (z_true months) && negb (z_true years) && negb (z_true centuries) then
      match d_week d, d_year d with
      | Some w, Some y =>
        let week := w + weeks in
        let year := y + 100 * d_century d in
        let! (year, week) := week_loop (S (S (Z.to_nat (Z.abs week)))) year week in
        let century := year / 100 in
        let year := year mod 100 in
        let decade := year / 10 in
        let year := year mod 10 in
        rmap Some (date_week None (Some century) (Some decade) (Some year) (Some week) None)
      | _, _ => Err TypeError
      end
    else Err DateTimeError
  | PMonth =>
    if negb (z_true days) && negb (z_true weeks) then
      match d_month d, d_year d with
      | Some m, Some y =>
        let month := m + months in
        let (years, month) :=
          if (12 <? month) || (month <? 1) then (years + (month - 1) / 12, (month - 1) mod 12 + 1)
          else (years, month) in
        let year := y + years in
        let (centuries, year) :=
          if (99 <? year) || (year <? 0) then (centuries + year / 100, year mod 100)
          else (centuries, year) in
        let century := d_century d + centuries in
        rmap Some (date_calendar None (Some century) (Some year) (Some month) None)
      | _, _ => Err TypeError
      end
    else Err DateTimeError
  | PYear =>
    if negb (z_true days) && negb (z_true weeks) && negb (z_true months) then
      match d_year d with
      | Some y =>
        let year := y + years in
        let (centuries, year) :=
          if (99 <? year) || (year <? 0) then (centuries + year / 100, year mod 100)
          else (centuries, year) in
        rmap Some (date_calendar None (Some (d_century d + centuries)) (Some year) None None)
      | None => Err TypeError
      end
    else Err DateTimeError
  | _ => Ok None
  end.

(** iso8601.py 929-940 [Date.from_julian], for month >= 1 *)
Definition from_julian (year month day : Z) : res date :=
  let msizes := sizes (negb (z_true (year mod 4))) in
  let year := year - 1 in
  let day := fold_left Z.add (firstn (Z.to_nat (month - 1)) msizes) day in
  date_absolute (year / 4 + year * 365 + day - 2).
(** iso8601.py 942-977 [Date.get_julian_day] *)
Definition get_julian_day (d : date) : res (Z * Z * Z) :=
  let quad_year := 1461 in
  let! day := get_absolute_day d in
  let day := day + 1 in
  let year := 4 * (day / quad_year) in
  let day := day mod quad_year in
  let (year, day) := if day =? quad_year - 1 then (year + 3, 365) else (year + day / 365, day mod 365) in
  let year := year + 1 in
  let day := day + 1 in
  let (month, day) := month_walk (sizes (negb (z_true (year mod 4)))) 1 day in
  Ok (year, month, day).

(** iso8601.py 607-611 [Date.from_struct_time] (fields 0-2) and 613-622 [update_struct_time]
    (fields 0,1,2,6,7) *)
Definition date_from_struct_time (t0 t1 t2 : Z) : res date :=
  date_calendar None (Some (t0 / 100)) (Some (t0 mod 100)) (Some t1) (Some t2).
Definition update_struct_time (d : date) : res (Z * option Z * option Z * Z * Z) :=
  if negb (complete d) then Err DateTimeError
  else match d_year d with
    | None => Err TypeError
    | Some y =>
      let! (_, _, _, _, wd) := get_week_day d in
      let! (_, _, od) := get_ordinal_day d in
      match wd, od with
      | Some wd, Some od => Ok (d_century d * 100 + y, d_month d, d_day d, wd - 1, od)
      | _, _ => Err TypeError
      end
    end.

(** iso8601.py 1056-1065 [sortkey], [otherkey] and py2.py 365-412 [SortableMixin]: the key
    (century, year, month, week, day) compared as a tuple.  None = NotImplemented (different
    precisions); TypeError if the first differing components include a None. *)
Definition key := list (option Z).
Definition sortkey (d : date) : key := [Some (d_century d); d_year d; d_month d; d_week d; d_day d].
Fixpoint key_eq (a b : key) : bool :=
  match a, b with
  | [], [] => true
  | x :: a, y :: b => oeq x y && key_eq a b
  | _, _ => false
  end.
Fixpoint key_lt (a b : key) : res bool :=
  match a, b with
  | [], [] => Ok false
  | [], _ :: _ => Ok true
  | _ :: _, [] => Ok false
  | x :: a, y :: b => if oeq x y then key_lt a b else olt x y
  end.
Definition prec_eqb (a b : precision) : bool :=
  match a, b with
  | PCentury, PCentury | PYear, PYear | PMonth, PMonth | PWeek, PWeek | PHour, PHour
  | PMinute, PMinute | PComplete, PComplete => true
  | _, _ => false
  end.
Definition date_eq (a b : date) : option bool :=
  if prec_eqb (get_precision a) (get_precision b) then Some (key_eq (sortkey a) (sortkey b)) else None.
Definition date_lt (a b : date) : option (res bool) :=
  if prec_eqb (get_precision a) (get_precision b) then Some (key_lt (sortkey a) (sortkey b)) else None.

(** ** Formatting *)
(** iso8601.py 125-135 class Truncation *)
Inductive truncation := NoTruncation | TCentury | TDecade | TYear | TMonth | TWeek | THour | TMinute.
(** "%02i", "%03i", "%i" of an attribute; None: TypeError.  The attributes are never negative. *)
Definition f2 (o : option Z) : res str := match o with Some n => Ok (dec_pad 2 n) | None => Err TypeError end.
Definition f3 (o : option Z) : res str := match o with Some n => Ok (dec_pad 3 n) | None => Err TypeError end.
Definition f1 (o : option Z) : res str := match o with Some n => Ok (dec_nat n) | None => Err TypeError end.
Definition sep (basic : bool) (s : str) : str := if basic then [] else s.
Fixpoint cat (l : list (res str)) : res str :=
  match l with [] => Ok [] | x :: r => let! s := x in let! t := cat r in Ok (s ++ t) end.
Definition txt (s : str) : res str := Ok s.

(** iso8601.py 749-821 [get_calendar_string] *)
Definition get_calendar_string (d : date) (basic : bool) (t : truncation) : res str :=
  let c := f2 (Some (d_century d)) in
  let y := f2 (d_year d) in
  let m := f2 (d_month d) in
  let dd := f2 (d_day d) in
  let h := txt (sep basic (lit "-")) in
  match d_day d with
  | None =>
    match d_month d with
    | None =>
      if truthy (d_week d) then Err DateTimeError
      else match d_year d with
        | None => match t with NoTruncation => c | _ => Err DateTimeError end
        | Some _ =>
          match t with
          | NoTruncation => cat [c; y]
          | TCentury => cat [txt (lit "-"); y]
          | _ => Err DateTimeError
          end
        end
    | Some _ =>
      match t with
      | NoTruncation => cat [c; y; txt (lit "-"); m]
      | TCentury => cat [txt (lit "-"); y; h; m]
      | TYear => cat [txt (lit "--"); m]
      | _ => Err DateTimeError
      end
    end
  | Some _ =>
    match t with
    | NoTruncation => cat [c; y; h; m; h; dd]
    | TCentury => cat [y; h; m; h; dd]
    | TYear => cat [txt (lit "--"); m; h; dd]
    | TMonth => cat [txt (lit "---"); dd]
    | _ => Err DateTimeError
    end
  end.

(** iso8601.py 823-856 [get_ordinal_string] *)
Definition get_ordinal_string (d : date) (basic : bool) (t : truncation) : res str :=
  let! (century, year, ordinal_day) := get_ordinal_day d in
  match ordinal_day with
  | None => get_calendar_string d basic t
  | Some _ =>
    let h := txt (sep basic (lit "-")) in
    match t with
    | NoTruncation => cat [f2 (Some century); f2 year; h; f3 ordinal_day]
    | TCentury => cat [f2 year; h; f3 ordinal_day]
    | TYear => cat [txt (lit "-"); f3 ordinal_day]
    | _ => Err DateTimeError
    end
  end.

(** iso8601.py 858-927 [get_week_string] *)
Definition get_week_string (d : date) (basic : bool) (t : truncation) : res str :=
  let! (century, decade, year, week, day) := get_week_day d in
  let c := f2 (Some century) in
  let h := txt (sep basic (lit "-")) in
  let W := txt (lit "W") in
  match day with
  | None =>
    match week with
    | None => get_calendar_string d basic t
    | Some _ =>
      match t with
      | NoTruncation => cat [c; f1 decade; f1 year; h; W; f2 week]
      | TCentury => cat [f1 decade; f1 year; h; W; f2 week]
      | TDecade => cat [txt (lit "-"); f1 year; h; W; f2 week]
      | TYear => cat [txt (lit "-"); W; f2 week]
      | _ => Err DateTimeError
      end
    end
  | Some _ =>
    match t with
    | NoTruncation => cat [c; f1 decade; f1 year; h; W; f2 week; h; f1 day]
    | TCentury => cat [f1 decade; f1 year; h; W; f2 week; h; f1 day]
    | TDecade => cat [txt (lit "-"); f1 year; h; W; f2 week; h; f1 day]
    | TYear => cat [txt (lit "-"); W; f2 week; h; f1 day]
    | TWeek => cat [txt (lit "-"); W; txt (lit "-"); f1 day]
    | _ => Err DateTimeError
    end
  end.
