(** Model of the classes Time, TimePoint and Duration of pyslet/iso8601.py.

    Only integer components are modelled: a Time built with a float (fractional) hour, minute or
    second, the fractional output of get_string (ndp > 0) and Time.with_precision with
    truncate=False are not.  Deprecated mutators (set_..., add_..., change_zone) and the camelCase
    keyword spellings are dropped. *)
From Verif Require Import Py Num IsoModel.

(** [hour] is never None on a constructed object *)
Record time := mkt { t_hour : Z; t_minute : option Z; t_second : option Z;
                     t_zdirection : option Z; t_zoffset : option Z }.

(** iso8601.py 1304-1320 [_set_from_values]: the zone offset *)
Definition zone_offset (zdirection zhour zminute : option Z) : res (option Z) :=
  match zdirection with
  | None => Ok None
  | Some zd =>
    if zd =? 0 then Ok (Some 0)
    else match zhour, zminute with
      | None, _ => Err DateTimeError
      | Some h, None => Ok (Some (h * 60))
      | Some h, Some m => Ok (Some (h * 60 + m))
      end
  end.
(** iso8601.py 1912-1943 [_check_time] on integers *)
Definition check_time (hour minute second zdirection zoffset : option Z) : res time :=
  let zone_ok :=
    match zdirection with
    | None => true
    | Some zd =>
      if (zd <? -1) || (1 <? zd) then false
      else if zd =? 0 then true
      else match zoffset with None => false | Some o => negb (1440 <=? o) end
    end in
  if negb zone_ok then Err DateTimeError
  else match hour with
    | None => Err DateTimeError
    | Some h =>
      let pos o := match o with Some x => 0 <? x | None => false end in
      let t := mkt h minute second zdirection zoffset in
      if (h <? 0) || (24 <? h) then Err DateTimeError
      else if (h =? 24) && (pos minute || pos second) then Err DateTimeError
      else match minute with
        | None => Ok t
        | Some m =>
          if (m <? 0) || (59 <? m) then Err DateTimeError
          else match second with
            | None => Ok t
            | Some s => if (s <? 0) || (61 <=? s) then Err DateTimeError else Ok t
            end
        end
    end.
(** iso8601.py 1245-1281 [Time.__init__] without src and total_seconds *)
Definition new_time (hour minute second zdirection zhour zminute : option Z) : res time :=
  if negb (is_some hour) && negb (is_some minute) && negb (is_some second) then
    Ok (mkt 0 (Some 0) (Some 0) None None)
  else
    let! zoffset := zone_offset zdirection zhour zminute in
    check_time hour minute second zdirection zoffset.

(** iso8601.py 1807-1815 [complete] *)
Definition t_complete (t : time) : bool := is_some (t_minute t) && is_some (t_second t).
(** iso8601.py 1817-1829 [get_precision] *)
Definition t_precision (t : time) : precision :=
  match t_second t with
  | Some _ => PComplete
  | None => match t_minute t with Some _ => PMinute | None => PHour end
  end.
(** iso8601.py 1293-1302 [get_total_seconds] *)
Definition get_total_seconds (t : time) : res Z :=
  match t_minute t, t_second t with
  | Some m, Some s => Ok ((if s =? 60 then 59 else s) + m * 60 + t_hour t * 3600)
  | _, _ => Err DateTimeError
  end.
(** iso8601.py 1339-1346 [get_zone_offset] *)
Definition get_zone_offset (t : time) : res (option Z) :=
  match t_zdirection t with
  | None => Ok None
  | Some zd => match t_zoffset t with Some o => Ok (Some (zd * o)) | None => Err TypeError end
  end.
(** iso8601.py 1348-1362 [get_zone3] *)
Definition get_zone3 (t : time) : res (option Z * option Z * option Z) :=
  match t_zdirection t with
  | None => Ok (None, None, None)
  | Some zd =>
    if zd =? 0 then Ok (Some zd, Some 0, Some 0)
    else match t_zoffset t with
      | Some o => Ok (Some zd, Some (o / 60), Some (o mod 60))
      | None => Err TypeError
      end
  end.

(** iso8601.py 1447-1507 [Time.offset] on integers *)
Definition t_offset (t : time) (hours minutes seconds : Z) : res (time * Z) :=
  let! (second, minutes) :=
    if z_true seconds then
      match t_second t with
      | None => Err DateTimeError
      | Some s => let s := s + seconds in Ok (Some (s mod 60), minutes + s / 60)
      end
    else Ok (t_second t, minutes) in
  let! (minute, hours) :=
    if z_true minutes then
      match t_minute t with
      | None => Err DateTimeError
      | Some m => let m := m + minutes in Ok (Some (m mod 60), hours + m / 60)
      end
    else Ok (t_minute t, hours) in
  let (hour, days) :=
    if z_true hours then let h := t_hour t + hours in (h mod 24, h / 24) else (t_hour t, 0) in
  let! (zd, zh, zm) := get_zone3 t in
  let! t' := new_time (Some hour) minute second zd zh zm in
  Ok (t', days).

(** iso8601.py 1254-1260, 1283-1291: the total_seconds constructor *)
Definition time_total_seconds (n : Z) : res time :=
  let! (t, overflow) := t_offset (mkt 0 (Some 0) (Some 0) None None) 0 0 n in
  if z_true overflow then Err DateTimeError
  else Ok (mkt (t_hour t) (t_minute t) (t_second t) None None).

(** iso8601.py 1388-1445 [Time.extend] *)
Definition t_extend (t : time) (hour minute second : option Z) : res (time * Z) :=
  match t_minute t, t_second t with
  | Some bm, Some bs =>
    let! (new_hour, new_minute, add_minute, add_hour) :=
      match hour with
      | Some _ => Ok (hour, minute, 0, 0)
      | None =>
        match minute with
        | None =>
          match second with
          | None => Err ValueError
          | Some s => Ok (Some (t_hour t), Some bm, if s <? bs then 1 else 0, 0)
          end
        | Some m =>
          let bs' := match second with None => None | Some _ => Some bs end in
          let! lt := ror (Ok (m <? bm)) (rand (m =? bm) (olt second bs')) in
          Ok (Some (t_hour t), minute, 0, if lt then 1 else 0)
        end
      end in
    let! (zd, zh, zm) := get_zone3 t in
    let! nt := new_time new_hour new_minute second zd zh zm in
    if z_true add_hour || z_true add_minute then t_offset nt add_hour add_minute 0
    else Ok (nt, 0)
  | _, _ => Err DateTimeError
  end.

(** iso8601.py 1509-1525 [Time.with_zone] *)
Definition with_zone (t : time) (zd zh zm : option Z) : res time :=
  new_time (Some (t_hour t)) (t_minute t) (t_second t) zd zh zm.

(** iso8601.py 1527-1581 [Time.shift_zone] *)
Definition shift_zone (t : time) (zdirection zhour zminute : option Z) : res (time * Z) :=
  match t_zoffset t with
  | None => Err DateTimeError
  | Some _ =>
    match zdirection with
    | None => Err DateTimeError
    | Some zd =>
      if negb (zd =? 0) && negb (is_some zhour) then Err DateTimeError
      else
        let new_offset := zd * (the zhour * 60 + the zminute) in
        let! old := get_zone_offset t in
        match old with
        | None => Err TypeError
        | Some old =>
          let zshift := new_offset - old in
          if negb (is_some (t_second t)) && negb (is_some (t_minute t)) && z_true (zshift mod 60) then Err DateTimeError
          else
            let (hour, minute) :=
              match t_minute t with
              | None => (t_hour t, None)
              | Some m =>
                let m := m + zshift mod 60 in
                if 59 <? m then (t_hour t + 1, Some (m - 60))
                else if m <? 0 then (t_hour t - 1, Some (m + 60))
                else (t_hour t, Some m)
              end in
            let hour := hour + zshift / 60 in
            let (hour, overflow) :=
              if 23 <? hour then (hour - 24, 1) else if hour <? 0 then (hour + 24, -1) else (hour, 0) in
            let! t' := new_time (Some hour) minute (t_second t) zdirection zhour zminute in
            Ok (t', overflow)
        end
    end
  end.

(** iso8601.py 1583-1588 [Time.from_struct_time] *)
Definition time_from_struct_time (h m s : Z) : res time := new_time (Some h) (Some m) (Some s) None None None.

(** iso8601.py 1945-1959 [sortkey], [otherkey] with SortableMixin; None = NotImplemented *)
Definition t_sortkey (t : time) : res key :=
  let! z := get_zone_offset t in
  Ok (Some (t_hour t) :: t_minute t :: t_second t :: match z with None => [] | Some z => [Some z] end).
Definition time_cmp {A} (f : key -> key -> A) (a b : time) : res (option A) :=
  let! ka := t_sortkey a in
  if prec_eqb (t_precision a) (t_precision b) then
    let! za := get_zone_offset a in
    let! zb := get_zone_offset b in
    if oeq za zb then let! kb := t_sortkey b in Ok (Some (f ka kb)) else Ok None
  else Ok None.

(** ** TimePoint *)
Record timepoint := mktp { tp_date : date; tp_time : time }.
(** iso8601.py 2145-2162, 2428-2433 [TimePoint.__init__], [_check_time_point] *)
Definition new_timepoint (d : date) (t : time) : res timepoint :=
  let! _ := check_date d in
  let! _ := check_time (Some (t_hour t)) (t_minute t) (t_second t) (t_zdirection t) (t_zoffset t) in
  if prec_eqb (get_precision d) PComplete then Ok (mktp d t) else Err DateTimeError.
(** iso8601.py 2211-2225 [TimePoint.shift_zone] *)
Definition tp_shift_zone (p : timepoint) (zd zh zm : option Z) : res timepoint :=
  let! (t, overflow) := shift_zone (tp_time p) zd zh zm in
  let! d :=
    if z_true overflow then
      let! o := offset (tp_date p) 0 0 0 0 overflow in
      match o with Some d => Ok d | None => Err TypeError end
    else Ok (tp_date p) in
  new_timepoint d t.
(** iso8601.py 2197-2209 [TimePoint.with_zone] *)
Definition tp_with_zone (p : timepoint) (zd zh zm : option Z) : res timepoint :=
  let! t := with_zone (tp_time p) zd zh zm in new_timepoint (tp_date p) t.
(** iso8601.py 2435-2441 [sortkey]: the recursive call is on a time in UTC, whose zone offset is
    zero *)
Definition tp_key (p : timepoint) : res key :=
  let! k := t_sortkey (tp_time p) in Ok (sortkey (tp_date p) ++ k).
Definition tp_sortkey (p : timepoint) : res key :=
  let! z := get_zone_offset (tp_time p) in
  if truthy z then let! q := tp_shift_zone p (Some 0) None None in tp_key q else tp_key p.
(** iso8601.py 2443-2454 [otherkey] with SortableMixin *)
Definition tp_cmp {A} (f : key -> key -> A) (a b : timepoint) : res (option A) :=
  let! ka := tp_sortkey a in
  if prec_eqb (t_precision (tp_time a)) (t_precision (tp_time b)) then
    let! za := get_zone_offset (tp_time a) in
    let! zb := get_zone_offset (tp_time b) in
    if xorb (is_some za) (is_some zb) then Ok None
    else let! kb := tp_sortkey b in Ok (Some (f ka kb))
  else Ok None.
Definition tp_eq := tp_cmp key_eq.
Definition tp_lt := tp_cmp key_lt.
(** iso8601.py 3454 EPOCH; time.gmtime(0) (Python library) is taken to be 1970-01-01 00:00:00 *)
Definition EPOCH : timepoint :=
  mktp (mkd 19 (Some 70) (Some 1) None (Some 1)) (mkt 0 (Some 0) (Some 0) (Some 0) (Some 0)).
(** iso8601.py 2361-2372 [from_unix_time] on an integer *)
Definition from_unix_time (n : Z) : res timepoint :=
  let! t0 := time_from_struct_time 0 0 0 in
  let! (t, overflow) := t_offset t0 0 0 n in
  let! d0 := date_from_struct_time 1970 1 1 in
  let! d := offset d0 0 0 0 0 overflow in
  match d with
  | None => Err TypeError
  | Some d => let! t := with_zone t (Some 0) None None in new_timepoint d t
  end.
(** iso8601.py 2374-2387 [get_unixtime] *)
Definition get_unixtime (p : timepoint) : res Z :=
  if negb (complete (tp_date p) && t_complete (tp_time p)) then Err DateTimeError
  else
    let! z := get_zone_offset (tp_time p) in
    match z with
    | None => Err DateTimeError
    | Some z =>
      let! zt := if z =? 0 then Ok p else tp_shift_zone p (Some 0) None None in
      let! d := get_absolute_day (tp_date zt) in
      let! d0 := get_absolute_day (tp_date EPOCH) in
      let! s := get_total_seconds (tp_time zt) in
      let! s0 := get_total_seconds (tp_time EPOCH) in
      Ok (86400 * (d - d0) + (s - s0))
    end.

(** ** Formatting *)
(** iso8601.py 1767-1805 [get_zone_string] *)
Definition get_zone_string (t : time) (basic : bool) (zone_precision : precision) : res str :=
  match t_zdirection t with
  | None => Ok []
  | Some zd =>
    if zd =? 0 then Ok (lit "Z")
    else match t_zoffset t with
      | None => Err TypeError
      | Some o =>
        let zstr := txt (if 0 <? zd then lit "+" else lit "-") in
        let hour := o / 60 in
        let minute := o mod 60 in
        if prec_eqb zone_precision PComplete || (0 <? minute) then
          cat [zstr; f2 (Some hour); txt (sep basic (lit ":")); f2 (Some minute)]
        else cat [zstr; f2 (Some hour)]
      end
  end.
(** iso8601.py 1671-1765 [Time.get_string] with ndp = 0.  With complete precision and a
    truncation other than Hour and Minute the local variable [stem] is unassigned:
    UnboundLocalError (modelled as RuntimeError). *)
Definition t_get_string (t : time) (basic : bool) (tr : truncation) (zone_precision : precision) : res str :=
  let h := f2 (Some (t_hour t)) in
  let m := f2 (t_minute t) in
  let s := f2 (t_second t) in
  let c := txt (sep basic (lit ":")) in
  let! stem :=
    match t_second t with
    | None =>
      match t_minute t with
      | None => match tr with NoTruncation => h | _ => Err ValueError end
      | Some _ =>
        match tr with
        | NoTruncation => cat [h; c; m]
        | THour => cat [txt (lit "-"); m]
        | _ => Err ValueError
        end
      end
    | Some _ =>
      match tr with
      | NoTruncation => cat [h; c; m; c; s]
      | THour => cat [txt (lit "-"); m; c; s]
      | TMinute => cat [txt (lit "--"); s]
      | _ => Err RuntimeError
      end
    end in
  match tr with
  | NoTruncation => let! z := get_zone_string t basic zone_precision in Ok (stem ++ z)
  | _ => Ok stem
  end.
(** iso8601.py 2281-2359: get_calendar_string, get_ordinal_string, get_week_string of TimePoint
    with the default tdesignator and ndp = 0 *)
Definition tp_string (f : date -> bool -> truncation -> res str) (p : timepoint) (basic : bool)
    (tr : truncation) (zp : precision) : res str :=
  cat [f (tp_date p) basic tr; txt (lit "T"); t_get_string (tp_time p) basic NoTruncation zp].

(** ** Duration *)
(** a calendar duration, or a number of weeks *)
Inductive duration :=
| DCal (years months days hours minutes seconds : option Z)
| DWeeks (weeks : Z).
(** iso8601.py 2611-2618 [set_zero] *)
Definition zero_duration : duration := DCal (Some 0) (Some 0) (Some 0) (Some 0) (Some 0) (Some 0).
(** iso8601.py 2710-2722 [__eq__] on two durations *)
Definition duration_eq (a b : duration) : bool :=
  match a, b with
  | DCal a1 a2 a3 a4 a5 a6, DCal b1 b2 b3 b4 b5 b6 =>
    oeq a1 b1 && oeq a2 b2 && oeq a3 b3 && oeq a4 b4 && oeq a5 b5 && oeq a6 b6
  | DWeeks a, DWeeks b => a =? b
  | _, _ => false
  end.
(** iso8601.py 2655-2699 [get_string] with ndp = 0 on integers.
    The trailing None components are dropped; IndexError if all are None. *)
Fixpoint strip_none (l : list (option Z)) : list (option Z) :=
  match l with
  | [] => []
  | x :: r =>
    match strip_none r with
    | [] => match x with None => [] | Some _ => [x] end
    | r' => x :: r'
    end
  end.
(** leading zeros become None, the last component is always kept *)
Fixpoint blank_zeros (l : list (option Z)) : list (option Z) :=
  match l with
  | [] => []
  | [x] => [x]
  | x :: r => match x with Some v => if v =? 0 then None :: blank_zeros r else l | None => l end
  end.
Definition component (p : option Z * Z) : str :=
  match fst p with None => [] | Some v => dec_str v ++ [snd p] end.
Definition duration_string (d : duration) (truncate_zeros : bool) : res str :=
  match d with
  | DWeeks _ => Err NotImplementedError
  | DCal y mo dd h mi s =>
    match strip_none [y; mo; dd; h; mi; s] with
    | [] => Err IndexError
    | cs =>
      let cs := if truncate_zeros then blank_zeros cs else cs in
      let parts := map component (combine cs (lit "YMDHMS")) in
      let date_part := List.concat (firstn 3 parts) in
      let time_part := List.concat (skipn 3 parts) in
      Ok (lit "P" ++ date_part ++ match time_part with [] => [] | _ => lit "T" ++ time_part end)
    end
  end.
