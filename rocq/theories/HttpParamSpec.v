(** Specification vocabulary for C39: values of HTTP parameters. *)
From Verif Require Import Py Num UriModel HttpModel HttpSpec HttpParamModel.

(** a token of the RFC *)
Definition ascii_token (s : str) : Prop := token s /\ Forall (fun c => 0 <= c < 128) s.
(** a parameter dictionary such as parse_parameters makes: the key is the name in lower case and
    keys are different; the name is a token; the value any binary string but the empty one *)
Definition good_param (p : str * (str * str)) : Prop :=
  let '(k, (n, v)) := p in ascii_token n /\ k = u_lower n /\ bytes v /\ v <> [].
Definition good_params (d : params) : Prop := NoDup (map fst d) /\ Forall good_param d.
(** the same mapping *)
Definition same_map (d e : params) : Prop := forall k, dict_get k d = dict_get k e.

(** ** HTTP dates *)
From Verif Require Import IsoModel IsoSpec IsoTimeModel IsoTimeSpec.
Definition day_names : list str := [lit "Mon"; lit "Tue"; lit "Wed"; lit "Thu"; lit "Fri"; lit "Sat"; lit "Sun"].
Definition long_day_names : list str :=
  [lit "Monday"; lit "Tuesday"; lit "Wednesday"; lit "Thursday"; lit "Friday"; lit "Saturday"; lit "Sunday"].
Definition month_names : list str :=
  [lit "Jan"; lit "Feb"; lit "Mar"; lit "Apr"; lit "May"; lit "Jun"; lit "Jul"; lit "Aug"; lit "Sep"; lit "Oct"; lit "Nov"; lit "Dec"].
Definition month_name (m : Z) : str := nth (Z.to_nat (m - 1)) month_names [].
Definition clock (h mi s : Z) : str := d2 h ++ lit ":" ++ d2 mi ++ lit ":" ++ d2 s.
(** day number [n] (0 = Monday 0001-01-01), hour, minute and second, UTC: the three formats of RFC 2616 *)
Definition rfc1123 (n : nat) (h mi s : Z) : str :=
  let '(y, m, d) := nth_day n in
  nth (n mod 7) day_names [] ++ lit ", " ++ d2 d ++ lit " " ++ month_name m ++ lit " " ++ d4 y ++ lit " " ++ clock h mi s ++ lit " GMT".
Definition rfc850 (n : nat) (h mi s : Z) : str :=
  let '(y, m, d) := nth_day n in
  nth (n mod 7) long_day_names [] ++ lit ", " ++ d2 d ++ lit "-" ++ month_name m ++ lit "-" ++ d2 (y mod 100) ++ lit " " ++ clock h mi s ++ lit " GMT".
Definition asctime (n : nat) (h mi s : Z) : str :=
  let '(y, m, d) := nth_day n in
  nth (n mod 7) day_names [] ++ lit " " ++ month_name m ++ lit " " ++ (if d <? 10 then lit " " ++ d1 d else d2 d) ++ lit " " ++ clock h mi s ++ lit " " ++ d4 y.
(** a time of day in UTC *)
Definition utc (h mi s : Z) : time := mkt h (Some mi) (Some s) (Some 0) (Some 0).
Definition clock_ok (h mi s : Z) : Prop := 0 <= h <= 23 /\ 0 <= mi <= 59 /\ 0 <= s <= 60.
Definition year_of (n : nat) : Z := fst (fst (nth_day n)).
