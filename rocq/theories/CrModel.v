(** Content-Range, Accept-Ranges, Allow and Cache-Control: pyslet/http/messages.py 2498-2759, 2881-2914,
    pyslet/http/grammar.py 717-735 (parse_tokenlist), pyslet/http/params.py 81-86 (bstr).
    Simplified: the length of a range is not limited to what len() can give. *)
From Verif Require Import Py Num UriModel HttpModel HttpParamModel AnModel.
From Coq Require Import String.
Open Scope Z_scope.

(** ** ContentRange *)
Record crange := CR { cr_first : option Z; cr_last : option Z; cr_total : option Z }.
(** 2705-2712 *)
Definition new_range (first last total : option Z) : res crange :=
  match first, last with Some _, None => Err TypeError | _, _ => Ok (CR first last total) end.
(** 2724-2736 *)
Definition int_str (n : option Z) : str := match n with Some n => dec_str n | None => lit "None" end.
Definition range_str (r : crange) : str :=
  lit "bytes " ++ (match cr_first r with None => star | Some f => dec_str f ++ lit "-" ++ int_str (cr_last r) end) ++ lit "/" ++
  match cr_total r with None => star | Some n => dec_str n end.
(** 2738-2743 *)
Definition range_len (r : crange) : res Z :=
  match cr_first r, cr_last r with
  | None, _ => Err ValueError
  | Some _, None => Err TypeError
  | Some f, Some l => if 0 <? l - f + 1 then Ok (l - f + 1) else Err ValueError
  end.
(** 2745-2757 *)
Definition is_valid (r : crange) : bool :=
  match cr_first r, cr_last r with
  | Some f, Some l => (f <=? l) && (0 <=? f) && match cr_total r with None => true | Some n => l <? n end
  | _, _ => false
  end.
(** 2881-2914 *)
Definition require_contentrange (ws : list word) : res (crange * list word) :=
  let! (u, ws) := require_token (parse_sp ws) in
  let! u := ascii u in
  if negb (str_eqb (u_lower u) (lit "bytes")) then Err BadSyntax else
  let! (spec, ws) := require_token (parse_sp ws) in
  let! (f, l) :=
    if str_eqb spec star then Ok (None, None)
    else match split_on 45 spec with
         | [a; b] => if is_digits a && is_digits b then Ok (Some (decimal a), Some (decimal b)) else Err BadSyntax
         | _ => Err BadSyntax
         end in
  let! ws := require_separator 47 (parse_sp ws) in
  let! (total, ws) := require_token (parse_sp ws) in
  let! t := if str_eqb total star then Ok None else if is_digits total then Ok (Some (decimal total)) else Err BadSyntax in
  let! r := new_range f l t in
  Ok (r, ws).
(** 2714-2722 *)
Definition range_parse (source : str) : res crange :=
  let! ws := words_of source true in
  let! (r, ws) := require_contentrange (parse_sp ws) in
  let! _ := require_end (parse_sp ws) in
  Ok r.

(** ** Lists of tokens *)
(** grammar.py 717-735 *)
Fixpoint parse_tokenlist (ws : list word) : res (list str * list word) :=
  match ws with
  | [] => Ok ([], [])
  | w :: r =>
      match parse_token ws with
      | (Some t, _) => let! t := ascii t in let! (l, r) := parse_tokenlist r in Ok (t :: l, r)
      | (None, _) => if fst (parse_separator 44 ws) then parse_tokenlist r else Ok ([], ws)
      end
  end.
(** params.py 81-86, of a character string *)
Definition bstr (s : str) : res str := if forallb (fun c => c <? 256) s then Ok s else Err UnicodeError.
Fixpoint bstr_all (l : list str) : res (list str) :=
  match l with [] => Ok [] | s :: l => let! s := bstr s in let! l := bstr_all l in Ok (s :: l) end.
Fixpoint comma_space (l : list str) : str := match l with [] => [] | [b] => b | b :: r => b ++ lit ", " ++ comma_space r end.
(** ** Allow *)
(** 2556-2558: the methods, and the methods sorted *)
Definition new_allow (args : list str) : res (list str) := let! l := bstr_all args in Ok (map b_upper l).
Definition allow_sorted (a : list str) : list str := sort cmp_str a.
(** 2560-2566 *)
Definition allow_parse (source : str) : res (list str) :=
  let! ws := words_of source true in
  let! (l, ws) := parse_tokenlist ws in
  let! _ := require_end ws in
  new_allow l.
(** 2568-2570 *)
Definition is_allowed (a : list str) (method : str) : res bool := let! m := bstr method in Ok (existsb (str_eqb (b_upper m)) (allow_sorted a)).
(** 2572-2573; == by sortkey, 2584-2585 *)
Definition allow_bytes (a : list str) : str := comma_space a.
Fixpoint strs_eqb (a b : list str) : bool := match a, b with [], [] => true | x :: a, y :: b => str_eqb x y && strs_eqb a b | _, _ => false end.
Definition allow_eqb (a b : list str) : bool := strs_eqb (allow_sorted a) (allow_sorted b).
(** ** Accept-Ranges *)
(** 2509-2518: the ranges; in lower case and sorted for comparison *)
Definition ar_lower (a : list str) : list str := map b_lower a.
Definition new_ranges (args : list str) : res (list str) :=
  let! l := bstr_all args in
  if existsb (str_eqb (lit "none")) (ar_lower l) then if (List.length (ar_lower l) =? 1)%nat then Ok [] else Err BadSyntax
  else Ok l.
Definition ar_sorted (a : list str) : list str := sort cmp_str (ar_lower a).
(** 2520-2529 *)
Definition ranges_parse (source : str) : res (list str) :=
  let! ws := words_of source true in
  let! (l, ws) := parse_tokenlist ws in
  match l with
  | [] => Err BadSyntax
  | _ => let! _ := require_end ws in new_ranges l
  end.
(** 2531-2535, 2546-2547 *)
Definition ranges_bytes (a : list str) : str := match a with [] => lit "none" | _ => comma_space a end.
Definition ranges_eqb (a b : list str) : bool := strs_eqb (ar_sorted a) (ar_sorted b).

(** ** Cache-Control *)
(** 2631-2637: HeaderParser has no ParseCacheControl *)
Definition cache_control_parse (source : str) : res (list str) := let! _ := words_of source true in Err AttributeError.
