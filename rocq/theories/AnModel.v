(** Content negotiation: pyslet/http/messages.py 2076-2495 (MediaRange, AcceptItem, AcceptList, AcceptToken and the
    Accept-Charset, -Encoding and -Language lists), params.py 656-695 (partial_match), py2.py 327-400 (comparison).
    A media range is a media type (HttpParamModel) with "*" for a wild card. Simplified: q-values are whole thousandths
    (parse_qvalue keeps three decimals; these floats are ordered and compared as the thousandths are). *)
From Verif Require Import Py Num UriModel HttpModel HttpParamModel.
From Coq Require Import String.
Open Scope Z_scope.

Definition star := lit "*".
(** ** Order: of strings, tuples and lists *)
Definition lexi (c d : comparison) : comparison := match c with Eq => d | _ => c end.
Fixpoint cmp_list {A} (cmp : A -> A -> comparison) (a b : list A) : comparison :=
  match a, b with
  | [], [] => Eq | [], _ :: _ => Lt | _ :: _, [] => Gt
  | x :: a, y :: b => lexi (cmp x y) (cmp_list cmp a b)
  end.
Definition cmp_str : str -> str -> comparison := cmp_list Z.compare.
Definition cmp_pair (a b : str * str) : comparison := lexi (cmp_str (fst a) (fst b)) (cmp_str (snd a) (snd b)).
(** list.sort(), which is stable *)
Section Sort.
  Context {A : Type} (cmp : A -> A -> comparison).
  Fixpoint put (x : A) (l : list A) : list A := match l with [] => [x] | y :: r => match cmp x y with Lt => x :: l | _ => y :: put x r end end.
  Definition sort (l : list A) : list A := fold_left (fun acc x => put x acc) l [].
End Sort.

(** ** Accept *)
Definition wild (s : str) : str := if str_eqb s star then lit "~" else s.
(** 2119-2123 *)
Definition cmp_range (r s : mediatype) : comparison :=
  lexi (cmp_str (wild (mt_type r)) (wild (mt_type s))) (lexi (cmp_str (wild (mt_subtype r)) (wild (mt_subtype s)))
    (lexi (- Z.of_nat (List.length (hp (mt_params r))) ?= - Z.of_nat (List.length (hp (mt_params s)))) (cmp_list cmp_pair (hp (mt_params r)) (hp (mt_params s))))).
(** 2125-2166 *)
Definition match_media_type (r m : mediatype) : bool :=
  if str_eqb (mt_type r) star then true
  else if negb (str_eqb (u_lower (mt_type r)) (u_lower (mt_type m))) then false
  else if str_eqb (mt_subtype r) star then true
  else if negb (str_eqb (u_lower (mt_subtype r)) (u_lower (mt_subtype m))) then false
  else forallb (fun pv => match dict_get (fst pv) (mt_params m) with Some (_, v) => str_eqb v (snd pv) | None => false end) (hp (mt_params r)).
(** 2172-2210 *)
Record aitem := AI { arange : mediatype; aq : Z; aext : params }.
Definition cmp_item (a b : aitem) : comparison := lexi (cmp_range (arange a) (arange b)) (- aq a ?= - aq b).
(** 2226-2228 *)
Definition accept_list (items : list aitem) : list aitem := sort cmp_item items.
(** the loops of 2230-2251: the q-value of the first item that matches, and the best so far *)
Fixpoint first_q {A} (hit : A -> bool) (qv : A -> Z) (items : list A) : option Z :=
  match items with [] => None | i :: items => if hit i then Some (qv i) else first_q hit qv items end.
Definition better {M} (best : option M * Z) (m : M) (oq : option Z) : option M * Z :=
  match oq with Some q => if snd best <? q then (Some m, q) else best | None => best end.
Definition select_type (items : list aitem) (mtypes : list mediatype) : option mediatype :=
  fst (fold_left (fun best m => better best m (first_q (fun i => match_media_type (arange i) m) aq items)) mtypes (None, 0)).

(** ** Accept-Charset and Accept-Encoding *)
(** 2274-2314 *)
Record atok := AT { token : str; tq : Z }.
Definition cmp_tok (a b : atok) : comparison := lexi (cmp_str (wild (token a)) (wild (token b))) (- tq a ?= - tq b).
Definition token_list (items : list atok) : list atok := sort cmp_tok items.
Definition match_token (t : str) (i : atok) : bool := str_eqb (u_lower (token i)) (u_lower t) || str_eqb (u_lower (token i)) star.
(** 2334-2357 *)
Definition select_token (items : list atok) (tokens : list str) : option str :=
  fst (fold_left (fun best t => better best t (first_q (match_token t) tq items)) tokens (None, 0)).
(** 2391-2410 *)
Definition select_charset (items : list atok) (tokens : list str) : option str :=
  fst (fold_left (fun best t =>
    match first_q (match_token t) tq items with
    | Some q => better best t (Some q)
    | None => if str_eqb (u_lower t) (lit "iso-8859-1") then better best t (Some 1000) else best
    end) tokens (None, 0)).
(** 2424-2449 *)
Definition select_encoding (items : list atok) (tokens : list str) : option str :=
  fst (fold_left (fun best t =>
    match first_q (match_token t) tq items with
    | Some q => better best t (Some q)
    | None => if str_eqb (u_lower t) (lit "identity") then if snd best =? 0 then (Some t, snd best) else best else best
    end) tokens (None, 0)).

(** ** Accept-Language *)
(** 2456-2466 *)
Definition lang_range (i : atok) : list str := if str_eqb (token i) star then [] else split_on 45 (u_lower (token i)).
Definition cmp_lang (a b : atok) : comparison :=
  lexi (- Z.of_nat (List.length (lang_range a)) ?= - Z.of_nat (List.length (lang_range b))) (cmp_list cmp_str (lang_range a) (lang_range b)).
Definition language_list (items : list atok) : list atok := sort cmp_lang items.
(** params.py 672-693 *)
Fixpoint same_tags (tag range : list str) : bool :=
  match range, tag with
  | [], _ => true
  | r :: range, t :: tag => str_eqb t r && same_tags tag range
  | _ :: _, [] => false
  end.
Definition partial_match (l : langtag) (range : list str) : bool :=
  if (List.length (lt_sortkey l) <? List.length range)%nat then false else same_tags (lt_sortkey l) range.
(** 2484-2495 *)
Definition select_language (items : list atok) (langs : list langtag) : option langtag :=
  fst (fold_left (fun best l => better best l (first_q (fun i => partial_match l (lang_range i)) tq items)) langs (None, 0)).
(** 2479-2482: str() of the result *)
Fixpoint all_tags (tokens : list str) : res (list langtag) :=
  match tokens with [] => Ok [] | t :: tokens => let! l := lt_from_str t in let! r := all_tags tokens in Ok (l :: r) end.
Definition select_language_token (items : list atok) (tokens : list str) : res str :=
  let! langs := all_tags tokens in
  match select_language items langs with Some l => lt_to_bytes l | None => Ok (lit "None") end.
