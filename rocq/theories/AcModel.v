(** Accept headers, read and written: pyslet/http/messages.py 2103-2117, 2183-2207, 2253-2263, 2284-2314, 2359-2375
    and 2765-2880, pyslet/http/params.py 972-991. The items are those of AnModel. Simplified: q-values are whole
    thousandths, from 0 ([fmt_q] is "%.3f" of such a value); a q-value with more than three decimals is not modelled. *)
From Verif Require Import Py Num UriModel HttpModel HttpParamModel AnModel.
From Coq Require Import String.
Open Scope Z_scope.

(** ** q-values *)
(** str.rstrip *)
Definition rstrip (c : Z) (s : str) : str :=
  let fix drop (s : str) := match s with x :: r => if x =? c then drop r else s | [] => [] end in rev (drop (rev s)).
(** 2200-2203, 2305-2308 *)
Definition fmt_q (q : Z) : str :=
  rstrip 46 (rstrip 48 (dec_str (q / 1000) ++ 46 :: [48 + q / 100 mod 10; 48 + q / 10 mod 10; 48 + q mod 10])).
(** params.py 972-991 *)
Definition to_q (w : str) : res (option Z) :=
  match split_on 46 w with
  | [a] => if is_digits a then Ok (Some (1000 * decimal a)) else Ok None
  | [a; b] =>
      if is_digits a && is_digits b then
        if (List.length b <=? 3)%nat then Ok (Some (1000 * decimal a + decimal (b ++ repeat 48 (3 - List.length b)))) else Err Unmodelled
      else Ok None
  | _ => Ok None
  end.
Definition parse_qvalue (ws : list word) : res (option Z * list word) :=
  match parse_token ws with
  | (Some w, r) => let! q := to_q w in match q with Some q => Ok (Some (if 1000 <? q then 1000 else q), r) | None => Ok (None, ws) end
  | (None, _) => Ok (None, ws)
  end.
(** 2790-2803, 2843-2856: what is after the semicolon, up to the q-value *)
Definition require_q (ws : list word) : res (Z * list word) :=
  let! (name, ws) := require_token (parse_sp ws) in
  let! name := ascii name in
  if negb (str_eqb (u_lower name) (lit "q")) then Err BadSyntax else
  let! ws := require_separator 61 (parse_sp ws) in
  let! (q, ws) := parse_qvalue (parse_sp ws) in
  match q with Some q => Ok (q, ws) | None => Err BadSyntax end.

(** ** Accept *)
(** 2773-2783, 2104-2110 *)
Definition require_media_range (ws : list word) : res (mediatype * list word) :=
  let! (type, ws) := require_token (parse_sp ws) in
  let! type := ascii (b_lower type) in
  let! ws := require_separator 47 ws in
  let! (subtype, ws) := require_token ws in
  let! subtype := ascii (b_lower subtype) in
  let (p, ws) := parse_parameters false false (Some (lit "q")) [] (parse_sp ws) in
  Ok (mkmt type subtype p, ws).
Definition range_from_str (source : str) : res mediatype :=
  let! ws := words_of source true in
  let! (m, ws) := require_media_range ws in
  let! _ := require_end ws in
  Ok m.
(** 2785-2808 *)
Definition require_accept_item (ws : list word) : res (aitem * list word) :=
  let! (range, ws) := require_media_range (parse_sp ws) in
  let ws := parse_sp ws in
  match parse_separator 59 ws with
  | (true, ws) =>
      let! (q, ws) := require_q ws in
      let (ext, ws) := parse_parameters true false None [] ws in
      Ok (AI range q ext, ws)
  | (false, ws) => Ok (AI range 1000 [], ws)
  end.
(** 2188-2195 *)
Definition item_from_str (source : str) : res aitem :=
  let! ws := words_of source true in
  let! (a, ws) := require_accept_item (parse_sp ws) in
  let! _ := require_end (parse_sp ws) in
  Ok a.
(** 2197-2206 *)
Definition item_to_bytes (a : aitem) : res str :=
  let! r := mt_to_bytes (arange a) in
  if match aext a with [] => aq a =? 1000 | _ => false end then Ok r
  else let! e := format_parameters (aext a) in Ok (r ++ lit "; q=" ++ fmt_q (aq a) ++ e).
(** 2814-2823, 2870-2879: the loop; parse_production catches ValueErrors and goes back *)
Section Items.
  Context {A : Type} (require : list word -> res (A * list word)).
  Fixpoint items_loop (fuel : nat) (ws : list word) : res (list A * list word) :=
    match ws, fuel with
    | [], _ | _, O => Ok ([], ws)
    | _, S f =>
        match require ws with
        | Err Unmodelled => Err Unmodelled
        | Err _ => Ok ([], ws)
        | Ok (a, ws) =>
            match parse_separator 44 (parse_sp ws) with
            | (true, ws) => let! (l, ws) := items_loop f ws in Ok (a :: l, ws)
            | (false, ws) => Ok ([a], ws)
            end
        end
    end.
End Items.
(** 2810-2827, 2253-2259 *)
Definition accept_from_str (source : str) : res (list aitem) :=
  let! ws := words_of source true in
  let ws := parse_sp ws in
  let! (items, ws) := items_loop require_accept_item (S (List.length ws)) ws in
  match items with
  | [] => Err BadSyntax
  | _ => let! _ := require_end ws in Ok (accept_list items)
  end.
(** 2261-2262 *)
Fixpoint comma_sep (l : list str) : str := match l with [] => [] | [b] => b | b :: r => b ++ lit ", " ++ comma_sep r end.
Fixpoint all_ok {A} (f : A -> res str) (l : list A) : res (list str) :=
  match l with [] => Ok [] | x :: l => let! b := f x in let! r := all_ok f l in Ok (b :: r) end.
Definition accept_to_str (items : list aitem) : res str := let! bs := all_ok item_to_bytes items in Ok (comma_sep bs).

(** ** Tokens *)
(** 2829-2857 *)
Definition require_accept_token (ws : list word) : res (atok * list word) :=
  let! (t, ws) := require_token (parse_sp ws) in
  let! t := ascii t in
  match parse_separator 59 (parse_sp ws) with
  | (true, ws) => let! (q, ws) := require_q ws in Ok (AT t q, ws)
  | (false, ws) => Ok (AT t 1000, ws)
  end.
(** 2290-2298 *)
Definition token_from_str (source : str) : res atok :=
  let! ws := words_of source true in
  let! (t, ws) := require_accept_token (parse_sp ws) in
  let! _ := require_end (parse_sp ws) in
  Ok t.
(** 2300-2309 *)
Definition token_to_bytes (t : atok) : res str := ascii (token t ++ if tq t =? 1000 then [] else lit ";q=" ++ fmt_q (tq t)).
(** 2859-2880, 2359-2365: the items as given to the list, which it sorts ([token_list], or [language_list]) *)
Definition tokens_from_str (order : list atok -> list atok) (source : str) : res (list atok) :=
  let! ws := words_of source true in
  let ws := parse_sp ws in
  let! (items, ws) := items_loop require_accept_token (S (List.length ws)) ws in
  let! _ := require_end ws in
  Ok (order items).
(** 2367-2368: character strings cannot be joined by a binary string *)
Definition tokens_to_bytes (items : list atok) : res str := match items with [] => Ok [] | _ => Err TypeError end.
