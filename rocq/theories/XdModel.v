(** Integers, decimals and booleans of XML Schema: pyslet/xml/xsdatatypes.py 39-243, 488-521.
    Simplified: a float is an exact fraction and its arithmetic is exact; decimal_to_str is given the number of digits.
    The limit of Python on the length of the text of an integer is not there. *)
From Verif Require Import Py Num UriModel HttpModel.
From Coq Require Import String.
Open Scope Z_scope.

(** 39-56 *)
Definition boolean_from_str (s : str) : res bool :=
  if str_eqb s (lit "true") then Ok true else if str_eqb s (lit "false") then Ok false
  else if str_eqb s (lit "1") then Ok true else if str_eqb s (lit "0") then Ok false else Err ValueError.
(** 59-71 *)
Definition boolean_to_str (b : bool) : str := if b then lit "true" else lit "false".

Definition is_sign (c : Z) : bool := (c =? 43) || (c =? 45).
(** what int() and float() do with a sign *)
Definition signed {A} (s : str) (f : Z -> str -> A) : A :=
  match s with c :: r => if c =? 45 then f (-1) r else if c =? 43 then f 1 r else f 1 s | [] => f 1 [] end.
(** 496-513: the loop *)
Fixpoint int_scan (s : str) (sign : bool) : bool :=
  match s with
  | [] => true
  | c :: r => if is_sign c then if sign then false else int_scan r true
              else if (c <? 48) || (57 <? c) then false else int_scan r true
  end.
(** int(src), of ASCII digits and signs *)
Definition py_int (s : str) : res Z := signed s (fun g r => if is_digits r then Ok (g * decimal r) else Err ValueError).
(** 488-514 *)
Definition integer_from_str (s : str) : res Z := if int_scan s false then py_int s else Err ValueError.
(** 517-520 *)
Definition integer_to_str (n : Z) : str := dec_str n.

(** ** decimals: a number over a power of ten *)
(** 80-103: the loop *)
Fixpoint dec_scan (s : str) (sign point digit : bool) : option bool :=
  match s with
  | [] => Some digit
  | c :: r => if is_sign c then if sign then None else dec_scan r true point digit
              else if c =? 46 then if point then None else dec_scan r sign true digit
              else if (c <? 48) || (57 <? c) then None else dec_scan r true point true
  end.
(** float(src), of ASCII digits, points and signs *)
Definition py_float (s : str) : res (Z * nat) :=
  signed s (fun g r => match split_on 46 r with
                       | [a] => if is_digits a then Ok (g * decimal a, 0%nat) else Err ValueError
                       | [a; b] => if is_digits (a ++ b) then Ok (g * decimal (a ++ b), List.length b) else Err ValueError
                       | _ => Err ValueError
                       end).
(** 74-107 *)
Definition decimal_from_str (s : str) : res (Z * nat) :=
  match dec_scan s false false false with Some true => py_float s | _ => Err ValueError end.

(** 117-145: the loop, over the digits from the last; d is at pos, which is the number of those before it *)
Fixpoint round_loop (l : str) : str * bool :=
  match l with
  | [] => ([], true)
  | d :: r =>
      let pos := List.length r in
      if (15 <? pos)%nat then let (r, o) := round_loop r in (48 :: r, o)
      else if (pos =? 15)%nat then if d <? 53 then (48 :: r, false) else let (r, o) := round_loop r in (48 :: r, o)
      else if d =? 57 then let (r, o) := round_loop r in (48 :: r, o)
      else (d + 1 :: r, false)
  end.
(** 117-145; float_info.dig is 15 *)
Definition round_digits (digits : str) : str * bool :=
  if (15 <? List.length digits)%nat then
    let (r, o) := round_loop (rev digits) in if o then (49 :: rev r, true) else (rev r, false)
  else (digits, false).
(** 148-160 *)
Fixpoint drop_zeros (l : str) : str := match l with c :: r => if c =? 48 then drop_zeros r else l | [] => [] end.
Definition strip_zeros (digits : str) : str :=
  match drop_zeros (rev digits) with
  | [] => digits
  | c :: r => if c =? 46 then firstn (S (S (List.length r))) digits else firstn (S (List.length r)) digits
  end.
(** 221-243: from the scaled and rounded value *)
Definition decimal_text (neg : bool) (i : Z) (digits : nat) (strip : bool) : str :=
  let ds := fst (round_digits (dec_str i)) in
  let ds := if (List.length ds <=? digits)%nat then repeat 48 (digits + 1 - List.length ds) ++ ds else ds in
  let n := (List.length ds - digits)%nat in
  let ds := firstn n ds ++ 46 :: skipn n ds in
  let ds := if neg then 45 :: ds else ds in
  if strip then strip_zeros ds else ds.
(** 163-243, of num / den *)
Definition decimal_to_str (num den : Z) (digits : Z) (strip : bool) : str :=
  let neg := num <? 0 in
  let value := if neg then - num else num in
  let digits := if digits <? 0 then 0%nat else Z.to_nat digits in
  if value =? 0 then if (digits =? 0)%nat then lit "0" else if strip then lit "0.0" else lit "0." ++ repeat 48 digits
  else decimal_text neg ((2 * value * 10 ^ Z.of_nat digits + den) / (2 * den)) digits strip.
