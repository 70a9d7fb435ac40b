(** Model of ISO8601Parser, pyslet/iso8601.py 2876-3451.

    The parser object is its unread source text: the methods used here only move forward one
    character at a time (the properties of BasicParser are C07-C09, C42), so [self.the_char] is the
    first unread character.  require_digit_value raises ParserError (a ValueError);
    self.BadSyntax does not exist in BasicParser: AttributeError.  Fractions (floats) are not
    modelled: reading one gives [Unmodelled]. *)
From Verif Require Import Py Num IsoModel IsoTimeModel.

Inductive perr := PErr (e : exn) | Unmodelled.
Inductive pres (A : Type) := POk (a : A) (rest : str) | PFail (e : perr).
Arguments POk {A} a rest.  Arguments PFail {A} e.
Definition P (A : Type) := str -> pres A.
Definition pret {A} (a : A) : P A := fun s => POk a s.
Definition pfail {A} (e : exn) : P A := fun _ => PFail (PErr e).
Definition pbind {A B} (m : P A) (k : A -> P B) : P B := fun s =>
  match m s with POk a r => k a r | PFail e => PFail e end.
Notation "'get' x <- m ; k" := (pbind m (fun x => k)) (at level 200, x name, m at level 100, k at level 200).
(** lift a constructor call *)
Definition lift {A} (r : res A) : P A := fun s => match r with Ok a => POk a s | Err e => PFail (PErr e) end.

(** unicode5.py 1233-1241 [match_digit] *)
Definition at_digit (s : str) : bool := match s with c :: _ => is_dec c | [] => false end.
(** self.the_char == "x" *)
Definition at_ch (c : Z) (s : str) : bool := match s with x :: _ => x =? c | [] => false end.
(** branch on match_digit / the_char *)
Definition if_digit {A} (a b : P A) : P A := fun s => if at_digit s then a s else b s.
Definition if_ch {A} (c : Z) (a b : P A) : P A := fun s => if at_ch c s then a s else b s.
(** next_char *)
Definition next : P unit := fun s => POk tt (tl s).
(** iso8601.py 3449-3451 [require_digit_value] *)
Definition rdv : P Z := fun s =>
  match s with
  | c :: r => if is_dec c then POk (c - 48) r else PFail (PErr ParserError)
  | [] => PFail (PErr ParserError)
  end.
(** the idiom v = rdv(); v = v * 10 + rdv() *)
Definition two : P Z := get a <- rdv; get b <- rdv; pret (a * 10 + b).
(** self.require("W") *)
Definition require_ch (c : Z) : P unit := fun s => if at_ch c s then POk tt (tl s) else PFail (PErr ParserError).

Section date.
Variable base : option date.
Notation D := (option (date * str)).
Definition dash : Z := 45.
Definition W : Z := 87.
Definition bad {A} : P A := pfail AttributeError.
Definition date_ret (r : res date) (f : string) : P D := get d <- lift r; pret (Some (d, lit f)).
Definition cal_ (c y m d : option Z) := date_calendar base c y m d.
Definition ord_ (c y : option Z) (o : Z) := date_ordinal base c y o.
Definition wk_ (c dec y w wd : option Z) := date_week base c dec y w wd.

(** iso8601.py 2922-2941: YYYYMM.. / YYYYDDD / YYMMDD / YYDDD after four digits *)
Definition after4_digit (v1 v2 : Z) : P D :=
  get v3 <- rdv;
  if_digit
    (get v3b <- rdv;
     let v3 := v3 * 10 + v3b in
     if_digit
       (get v4 <- rdv;
        if_digit
          (get v4b <- rdv;
           date_ret (cal_ (Some v1) (Some v2) (Some v3) (Some (v4 * 10 + v4b))) "YYYYMMDD")
          (date_ret (ord_ (Some v1) (Some v2) (v3 * 10 + v4)) "YYYYDDD"))
       (date_ret (cal_ None (Some v1) (Some v2) (Some v3)) "YYMMDD"))
    (date_ret (ord_ None (Some v1) (v2 * 10 + v3)) "YYDDD").
(** iso8601.py 2942-2975: "YYYY-" *)
Definition after4_dash (v1 v2 : Z) : P D :=
  get _ <- next;
  if_digit
    (get v3 <- two;
     if_digit
       (get v3c <- rdv; date_ret (ord_ (Some v1) (Some v2) (v3 * 10 + v3c)) "YYYY-DDD")
       (if_ch dash
         (get _ <- next; get v4 <- two; date_ret (cal_ (Some v1) (Some v2) (Some v3) (Some v4)) "YYYY-MM-DD")
         (date_ret (cal_ (Some v1) (Some v2) (Some v3) None) "YYYY-MM")))
    (if_ch W
      (get _ <- next;
       get v3 <- two;
       if_ch dash
         (get _ <- next; get v4 <- rdv;
          date_ret (wk_ (Some v1) (Some (v2 / 10)) (Some (v2 mod 10)) (Some v3) (Some v4)) "YYYY-Www-D")
         (date_ret (wk_ (Some v1) (Some (v2 / 10)) (Some (v2 mod 10)) (Some v3) None) "YYYY-Www"))
      bad).
(** iso8601.py 2976-2987: "YYYYW" *)
Definition after4_w (v1 v2 : Z) : P D :=
  get _ <- next;
  get v3 <- two;
  if_digit
    (get v4 <- rdv;
     date_ret (wk_ (Some v1) (Some (v2 / 10)) (Some (v2 mod 10)) (Some v3) (Some v4)) "YYYYWwwD")
    (date_ret (wk_ (Some v1) (Some (v2 / 10)) (Some (v2 mod 10)) (Some v3) None) "YYYYWww").
(** iso8601.py 2990-3024: "YY-" *)
Definition after2_dash (v1 : Z) : P D :=
  get _ <- next;
  if_digit
    (get v2 <- two;
     if_digit
       (get v2c <- rdv; date_ret (ord_ None (Some v1) (v2 * 10 + v2c)) "YY-DDD")
       (if_ch dash
         (get _ <- next; get v3 <- two; date_ret (cal_ None (Some v1) (Some v2) (Some v3)) "YY-MM-DD")
         bad))
    (if_ch W
      (get _ <- next;
       get v2 <- two;
       if_ch dash
         (get _ <- next; get v3 <- rdv;
          date_ret (wk_ None (Some (v1 / 10)) (Some (v1 mod 10)) (Some v2) (Some v3)) "YY-Www-D")
         (date_ret (wk_ None (Some (v1 / 10)) (Some (v1 mod 10)) (Some v2) None) "YY-Www"))
      bad).
(** iso8601.py 3025-3037: "YYW" *)
Definition after2_w (v1 : Z) : P D :=
  get _ <- next;
  get v2 <- two;
  if_digit
    (get v3 <- rdv;
     date_ret (wk_ None (Some (v1 / 10)) (Some (v1 mod 10)) (Some v2) (Some v3)) "YYWwwD")
    (date_ret (wk_ None (Some (v1 / 10)) (Some (v1 mod 10)) (Some v2) None) "YYWww").
(** iso8601.py 3042-3082: "-" and a digit; the last case falls off the end of the function *)
Definition dash_digit : P D :=
  get v1 <- rdv;
  if_digit
    (get v1b <- rdv;
     let v1 := v1 * 10 + v1b in
     if_digit
       (get v2 <- rdv;
        if_digit
          (get v2b <- rdv; date_ret (cal_ None (Some v1) (Some (v2 * 10 + v2b)) None) "-YYMM")
          (date_ret (ord_ None None (v1 * 10 + v2)) "-DDD"))
       (if_ch dash
         (get _ <- next; get v2 <- two; date_ret (cal_ None (Some v1) (Some v2) None) "-YY-MM")
         (date_ret (cal_ None (Some v1) None None) "-YY")))
    (if_ch dash
      (get _ <- next;
       get _ <- require_ch W;
       get v2 <- two;
       if_ch dash
         (get _ <- next; get v3 <- rdv; date_ret (wk_ None None (Some v1) (Some v2) (Some v3)) "-Y-Www-D")
         (date_ret (wk_ None None (Some v1) (Some v2) None) "-Y-Www"))
      (if_ch W
        (get _ <- next;
         get v2 <- two;
         if_digit
           (get v3 <- rdv; date_ret (wk_ None None (Some v1) (Some v2) (Some v3)) "-YWwwD")
           (date_ret (wk_ None None (Some v1) (Some v2) None) "-YWww"))
        (pret None))).
(** iso8601.py 3083-3106: "--" *)
Definition dash_dash : P D :=
  get _ <- next;
  if_digit
    (get v1 <- two;
     if_digit
       (get v2 <- two; date_ret (cal_ None None (Some v1) (Some v2)) "--MMDD")
       (if_ch dash
         (get _ <- next; get v2 <- two; date_ret (cal_ None None (Some v1) (Some v2)) "--MM-DD")
         (date_ret (cal_ None None (Some v1) None) "--MM")))
    (if_ch dash
      (get _ <- next; get v1 <- two; date_ret (cal_ None None None (Some v1)) "---DD")
      bad).
(** iso8601.py 3107-3127: "-W" *)
Definition dash_w : P D :=
  get _ <- next;
  if_digit
    (get v1 <- two;
     if_digit
       (get v2 <- rdv; date_ret (wk_ None None None (Some v1) (Some v2)) "-WwwD")
       (if_ch dash
         (get _ <- next; get v2 <- rdv; date_ret (wk_ None None None (Some v1) (Some v2)) "-Www-D")
         (date_ret (wk_ None None None (Some v1) None) "-Www")))
    (if_ch dash
      (get _ <- next; get v1 <- rdv; date_ret (wk_ None None None None (Some v1)) "-W-D")
      bad).
(** iso8601.py 2911-3132 [parse_date_format] *)
Definition parse_date_format : P D :=
  if_digit
    (get v1 <- two;
     if_digit
       (get v2 <- two;
        if_digit (after4_digit v1 v2)
          (if_ch dash (after4_dash v1 v2)
            (if_ch W (after4_w v1 v2)
              (date_ret (cal_ (Some v1) (Some v2) None None) "YYYY"))))
       (if_ch dash (after2_dash v1)
         (if_ch W (after2_w v1)
           (date_ret (cal_ (Some v1) None None None) "YY"))))
    (if_ch dash
      (get _ <- next;
       if_digit dash_digit
         (if_ch dash dash_dash
           (if_ch W dash_w bad)))
      bad).
End date.

Definition run {A} (p : P A) (s : str) : sum perr A :=
  match p s with POk a _ => inr a | PFail e => inl e end.
(** iso8601.py 711-719 [Date.from_str]: unpacking None is a TypeError *)
Definition date_from_str (src : str) (base : option date) : res date :=
  match parse_date_format base src with
  | POk (Some (d, _)) _ => Ok d
  | POk None _ => Err TypeError
  | PFail (PErr e) => Err e
  | PFail Unmodelled => Err Timeout
  end.

(** ** Times *)
Definition colon : Z := 58.
(** iso8601.py 3436-3447 [parse_fraction]: not modelled *)
Definition fraction {A} : P A := fun _ => PFail Unmodelled.
Definition if_point {A} (a b : P A) : P A := fun s => if at_ch 46 s || at_ch 44 s then a s else b s.
(** iso8601.py 3278-3305 [parse_time_zone_format]; called on "Z", "+" or "-" (otherwise the local
    variables are unassigned: UnboundLocalError) *)
Definition parse_time_zone_format : P (Z * Z * option Z * str) :=
  if_ch 90
    (get _ <- next; pret (0, 0, Some 0, lit "Z"))
    (fun s =>
      if at_ch 43 s || at_ch 45 s then
        let v1 := if at_ch 43 s then 1 else -1 in
        (get _ <- next;
         get v2 <- two;
         if_digit
           (get v3 <- two; pret (v1, v2, Some v3, lit "+hhmm"))
           (if_ch colon
             (get _ <- next; get v3 <- two; pret (v1, v2, Some v3, lit "+hh:mm"))
             (pret (v1, v2, None, lit "+hh")))) s
      else PFail (PErr RuntimeError)).
(** iso8601.py 2730-2873 the format tables, for times without fractions *)
Definition basic_date_formats : list string :=
  ["YYYYMMDD"; "YYYY-MM"; "YYYY"; "YY"; "YYMMDD"; "-YYMM"; "-YY"; "--MMDD"; "--MM"; "---DD";
   "YYYYDDD"; "YYDDD"; "-DDD"; "YYYYWwwD"; "YYYYWww"; "YYWwwD"; "YYWww"; "-YWwwD"; "-YWww";
   "-WwwD"; "-Www"; "-W-D"]%string.
Definition extended_date_formats : list string :=
  ["YYYY-MM-DD"; "YYYY-MM"; "YYYY"; "YY"; "YY-MM-DD"; "-YY-MM"; "-YY"; "--MM-DD"; "--MM"; "---DD";
   "YYYY-DDD"; "YY-DDD"; "-DDD"; "YYYY-Www-D"; "YYYY-Www"; "YY-Www-D"; "YY-Www"; "-Y-Www-D";
   "-Y-Www"; "-Www-D"; "-Www"; "-W-D"]%string.
Definition basic_time_formats : list string :=
  ["hhmmss"; "hhmm"; "hh"; "hhmmssZ"; "hhmmZ"; "hhZ"; "hhmmss+hhmm"; "hhmm+hhmm"; "hh+hhmm";
   "hhmmss+hh"; "hhmm+hh"; "hh+hh"; "-mmss"; "-mm"; "--ss"]%string.
Definition extended_time_formats : list string :=
  ["hh:mm:ss"; "hh:mm"; "hh"; "hh:mm:ssZ"; "hh:mmZ"; "hhZ"; "hh:mm:ss+hh:mm"; "hh:mm+hh:mm";
   "hh+hh:mm"; "hh:mm:ss+hh"; "hh:mm+hh"; "hh+hh"; "-mm:ss"; "-mm"; "--ss"]%string.
Definition fin (f : str) (l : list string) : bool := existsb (fun x => str_eqb f (lit x)) l.

Definition hms := (Z * option Z * option Z * str)%type.
(** iso8601.py 3146-3202: the untruncated forms *)
Definition parse_hms : P hms :=
  get v1 <- two;
  if_digit
    (get v2 <- two;
     if_digit
       (get v3 <- two;
        if_point fraction (pret (v1, Some v2, Some v3, lit "hhmmss")))
       (if_point fraction (pret (v1, Some v2, None, lit "hhmm"))))
    (if_point fraction
      (if_ch colon
        (get _ <- next;
         get v2 <- two;
         if_ch colon
           (get _ <- next;
            get v3 <- two;
            if_point fraction (pret (v1, Some v2, Some v3, lit "hh:mm:ss")))
           (if_point fraction (pret (v1, Some v2, None, lit "hh:mm"))))
        (pret (v1, None, None, lit "hh")))).
(** iso8601.py 3203-3257: the truncated forms (hour is None) *)
Definition parse_truncated : P (option Z * option Z * str) :=
  get _ <- next;
  if_digit
    (get v1 <- two;
     if_digit
       (get v2 <- two; if_point fraction (pret (Some v1, Some v2, lit "-mmss")))
       (if_point fraction
         (if_ch colon
           (get _ <- next; get v2 <- two; if_point fraction (pret (Some v1, Some v2, lit "-mm:ss")))
           (pret (Some v1, None, lit "-mm")))))
    (if_ch dash
      (get _ <- next; get v1 <- two; if_point fraction (pret (None, Some v1, lit "--ss")))
      bad).
Definition at_zone (s : str) : bool := at_ch 90 s || at_ch 43 s || at_ch 45 s.
(** iso8601.py 3140-3276 [parse_time_format] with tdesignators "T".  [None in "T"] is a
    TypeError at the end of the source; base.extend with base None is an AttributeError. *)
Definition parse_time_format (base : option time) : P (time * Z * str) := fun s =>
  match s with
  | [] => PFail (PErr TypeError)
  | _ =>
    let tdesignator := at_ch 84 s in
    (get _ <- (if tdesignator then next else pret tt);
     if_digit
       (get v <- parse_hms;
        let '(h, m, sec, tformat) := v in
        fun s =>
          if at_zone s then
            (get z <- parse_time_zone_format;
             let '(zd, zh, zm, zf) := z in
             let tformat := tformat ++ zf in
             if fin tformat basic_time_formats || fin tformat extended_time_formats then
               get t <- lift (new_time (Some h) m sec (Some zd) (Some zh) zm); pret (t, 0, tformat)
             else pfail DateTimeError) s
          else match base with
            | Some b =>
              (get r <- lift (t_extend b (Some h) m sec);
               let '(t, o) := r in pret (t, o, tformat)) s
            | None => (get t <- lift (new_time (Some h) m sec None None None); pret (t, 0, tformat)) s
            end)
       (if_ch dash
         (if tdesignator then bad
          else
            get v <- parse_truncated;
            let '(m, sec, tformat) := v in
            match base with
            | None => pfail AttributeError
            | Some b => get r <- lift (t_extend b None m sec); let '(t, o) := r in pret (t, o, tformat)
            end)
         bad)) s
  end.
(** iso8601.py 1607-1618 [Time.from_str] *)
Definition to_res {A} (m : P A) (s : str) : res A :=
  match m s with POk a _ => Ok a | PFail (PErr e) => Err e | PFail Unmodelled => Err Timeout end.
Definition time_from_str (s : str) (base : option time) : res time :=
  to_res (get r <- parse_time_format base; let '(t, _, _) := r in pret t) s.
(** iso8601.py 2885-2903 [parse_time_point_format] with tdesignators "T" *)
Definition parse_time_point_format (base : option date) : P timepoint :=
  get r <- parse_date_format base;
  match r with
  | None => pfail TypeError
  | Some (d, df) =>
    if negb (complete d) then pfail DateTimeError
    else fun s =>
      match s with
      | [] => PFail (PErr TypeError)
      | c :: _ =>
        if negb (c =? 84) then PFail (PErr DateTimeError)
        else
          (get r <- parse_time_format None;
           let '(t, overflow, tf) := r in
           get d <- (if z_true overflow then
                      get o <- lift (offset d 0 0 0 0 overflow);
                      match o with Some d => pret d | None => pfail TypeError end
                    else pret d);
           if (fin tf extended_time_formats && fin df extended_date_formats) ||
              (fin tf basic_time_formats && fin df basic_date_formats)
           then lift (new_timepoint d t)
           else pfail DateTimeError) s
      end
  end.
(** iso8601.py 2245-2254 [TimePoint.from_str] *)
Definition timepoint_from_str (s : str) (base : option date) : res timepoint :=
  to_res (parse_time_point_format base) s.

(** ** Durations *)
(** unicode5.py 1300-1331 [parse_integer] without arguments: one or more digits *)
Fixpoint span_digits (s : str) : str * str :=
  match s with
  | c :: r => if is_dec c then let (a, b) := span_digits r in (c :: a, b) else ([], s)
  | [] => ([], [])
  end.
(** iso8601.py 3320-3337 [parse_duration_value]: [None in ".,"] is a TypeError at the end of the
    source; the [format] of a value is always "n" without fractions, so allow_fraction is dropped *)
Definition duration_value : P (option Z) := fun s =>
  match span_digits s with
  | ([], _) => POk None s
  | (ds, []) => PFail (PErr TypeError)
  | (ds, c :: r) => if (c =? 46) || (c =? 44) then PFail Unmodelled else POk (Some (decimal ds)) (c :: r)
  end.
(** iso8601.py 3353-3377, 3386-3410: one designated component: if a value is pending and the
    designator [c] follows, the component is taken and the next value read *)
Definition take (v : option Z) (c : Z) : P (option Z * option Z) := fun s =>
  match v with
  | Some x => if at_ch c s then (get _ <- next; get w <- duration_value; pret (Some x, w)) s else POk (None, v) s
  | None => POk (None, v) s
  end.
(** the last designator of a part: no further value is read *)
Definition take_last (v : option Z) (c : Z) : P (option Z * option Z) := fun s =>
  match v with
  | Some x => if at_ch c s then (get _ <- next; pret (Some x, None)) s else POk (None, v) s
  | None => POk (None, v) s
  end.
(** iso8601.py 3424-3430: missing components of higher order are zero *)
Fixpoint fill (l : list (option Z)) : list (option Z) * option Z :=
  match l with
  | [] => ([], None)
  | x :: r =>
    let (r', dv) := fill r in
    match x with None => (dv :: r', dv) | Some _ => (x :: r', Some 0) end
  end.
(** iso8601.py 3416-3434: at least one component, and defaults *)
Definition finish (y mo dd h mi sec : option Z) : P duration :=
  match fst (fill [y; mo; dd; h; mi; sec]) with
  | [y; mo; dd; h; mi; sec] => pret (DCal y mo dd h mi sec)
  | _ => pfail TypeError
  end.
(** iso8601.py 3380-3421: the time part, after "T" *)
Definition time_part (y mo dd : option Z) : P duration :=
  get v <- duration_value;
  get r4 <- take v 72; let '(h, v) := r4 in
  get r5 <- take v 77; let '(mi, v) := r5 in
  get r6 <- take_last v 83; let '(sec, v) := r6 in
  match v with
  | Some _ => pfail DateTimeError
  | None =>
    match h, mi, sec with
    | None, None, None => pfail DateTimeError
    | _, _, _ => finish y mo dd h mi sec
    end
  end.
(** iso8601.py 3339-3434 [parse_duration] *)
Definition parse_duration : P duration := fun s =>
  if negb (at_ch 80 s) then PFail (PErr DateTimeError)
  else
    (get _ <- next;
     get v0 <- duration_value;
     fun s =>
       if is_some v0 && at_ch 87 s then (get _ <- next; pret (DWeeks (the v0))) s
       else
         (get r1 <- take v0 89; let '(y, v) := r1 in
          get r2 <- take v 77; let '(mo, v) := r2 in
          get r3 <- take_last v 68; let '(dd, v) := r3 in
          match v with
          | Some _ => pfail DateTimeError
          | None =>
            if_ch 84 (get _ <- next; time_part y mo dd)
              (match y, mo, dd with
               | None, None, None => pfail DateTimeError
               | _, _, _ => finish y mo dd None None None
               end)
          end) s) s.
(** iso8601.py 2648-2653 [Duration.set_from_string] *)
Definition duration_from_string (s : str) : res duration := to_res parse_duration s.
