(** Model of the declarations of element types: pyslet/xml/parser.py 2771-3087 (parse_elementdecl, parse_content_spec,
    parse_children, parse_cp, parse_choice, parse_seq, parse_mixed), 1019-1052 (literals), 1258-1349 (white space and
    names).  The parser is the text that it has not read; there are no parameter entities ([Unmodelled] where one is
    referred to) and no SGML options.  XMLError is XMLWellFormedError.  [k] numbers the name particles that are created.
    Validity errors (declared twice, duplicate names in mixed content) are not in it. *)
From Verif Require Import Py CmSpec.

(** structures.py 143-147 *)
Definition is_s (c : Z) : bool := (c =? 32) || (c =? 9) || (c =? 10) || (c =? 13).
(** structures.py 181-211 *)
Definition start_ranges : list (Z * Z) :=
  [(58, 58); (65, 90); (95, 95); (97, 122); (192, 214); (216, 246); (248, 767); (880, 893); (895, 8191); (8204, 8205);
   (8304, 8591); (11264, 12271); (12289, 55295); (63744, 64975); (65008, 65533)].
Definition in_ranges (c : Z) (l : list (Z * Z)) : bool := existsb (fun r => (fst r <=? c) && (c <=? snd r)) l.
Definition is_name_start_char (c : Z) : bool := in_ranges c start_ranges.
Definition is_name_char (c : Z) : bool :=
  in_ranges c (start_ranges ++ [(45, 45); (46, 46); (48, 57); (183, 183); (768, 879); (8255, 8256)]).
(** structures.py 214-225 *)
Definition is_valid_name (n : str) : bool :=
  match n with [] => false | c :: r => is_name_start_char c && forallb is_name_char r end.

(** 1258-1300 [parse_s] *)
Fixpoint parse_s (t : str) : res str :=
  match t with
  | c :: r => if is_s c then parse_s r
              else if (c =? 37) && match r with d :: _ => is_name_start_char d | [] => false end then Err Unmodelled
              else Ok t
  | [] => Ok []
  end.
(** 1302-1314: the white space cannot be left out *)
Definition parse_required_s (t : str) : res str :=
  match t with c :: _ => if is_s c then parse_s t else let! _ := parse_s t in Err XMLError | [] => Err XMLError end.
(** 1019-1037 *)
Fixpoint parse_literal (m t : str) : option str :=
  match m, t with
  | [], _ => Some t
  | x :: m', c :: t' => if x =? c then parse_literal m' t' else None
  | _ :: _, [] => None
  end.
Definition parse_required_literal (m t : str) : res str :=
  match parse_literal m t with Some r => Ok r | None => Err XMLError end.
(** 1319-1349 *)
Fixpoint name_rest (t : str) : str * str :=
  match t with
  | c :: r => if is_name_char c then let (n, u) := name_rest r in (c :: n, u) else ([], t)
  | [] => ([], [])
  end.
Definition parse_required_name (t : str) : res (str * str) :=
  match t with
  | c :: r => if is_name_start_char c then let (n, u) := name_rest r in Ok (c :: n, u) else Err XMLError
  | [] => Err XMLError
  end.

(** 2868-2877, 2903-2911: the occurrence *)
Definition parse_occ (t : str) : occ * str :=
  match t with
  | c :: r => if c =? 63 then (Opt, r) else if c =? 42 then (Star, r) else if c =? 43 then (Plus, r) else (Once, t)
  | [] => (Once, t)
  end.
Definition set_occ (p : particle) (o : occ) : particle :=
  match p with PName i n _ => PName i n o | PChoice _ l => PChoice o l | PSeq _ l => PSeq o l end.
Fixpoint parse_cp (f : nat) (k : nat) (t : str) {struct f} : res (particle * nat * str) :=
  match f with
  | O => Err Timeout
  | S f =>
    (* 2879-2911 [parse_cp] *)
    let! (p, k, t) := match parse_literal (lit "(") t with
                      | Some t => parse_group f k t
                      | None => let! (n, t) := parse_required_name t in Ok (PName k n Once, S k, t)
                      end in
    let (o, t) := parse_occ t in Ok (set_occ p o, k, t)
  end
with parse_group (f : nat) (k : nat) (t : str) {struct f} : res (particle * nat * str) :=
  match f with
  | O => Err Timeout
  | S f =>
    (* 2859-2867, 2886-2899: after the bracket *)
    let! t := parse_s t in
    let! (p, k, t) := parse_cp f k t in
    let! t := parse_s t in
    match t with
    | c :: _ => if (c =? 44) || (c =? 41) then let! (l, k, t) := parse_list f 44 k t in Ok (PSeq Once (p :: l), k, t)
                else if c =? 124 then let! (l, k, t) := parse_list f 124 k t in Ok (PChoice Once (p :: l), k, t)
                else Err XMLError
    | [] => Err XMLError
    end
  end
with parse_list (f : nat) (sep : Z) (k : nat) (t : str) {struct f} : res (list particle * nat * str) :=
  (* 2941-2968 [parse_choice], 2998-3017 [parse_seq]: the loop; a choice has more than one member here *)
  match f with
  | O => Err Timeout
  | S f =>
    match t with
    | c :: r =>
      if c =? sep then
        let! t := parse_s r in
        let! (p, k, t) := parse_cp f k t in
        let! t := parse_s t in
        let! (l, k, t) := parse_list f sep k t in
        Ok (p :: l, k, t)
      else if c =? 41 then Ok ([], k, r)
      else Err XMLError
    | [] => Err XMLError
    end
  end.
(** 3052-3080 [parse_mixed]: the loop *)
Fixpoint parse_names (f : nat) (k : nat) (t : str) : res (list (nat * str) * nat * str) :=
  match f with
  | O => Err Timeout
  | S f =>
    let! t := parse_s t in
    match t with
    | c :: r =>
      if c =? 41 then Ok ([], k, t)
      else if c =? 124 then
        let! t := parse_s r in
        let! (n, t) := parse_required_name t in
        let! (l, k', t) := parse_names f (S k) t in
        Ok ((k, n) :: l, k', t)
      else Err XMLError
    | [] => Err XMLError
    end
  end.
(** 3019-3087 [parse_mixed], after #PCDATA *)
Definition parse_mixed (t : str) : res (list (nat * str) * str) :=
  let! (l, _, t) := parse_names (S (length t)) 0 t in
  match l with
  | [] => let! t := parse_required_literal (lit ")") t in
          Ok ([], match parse_literal (lit "*") t with Some t => t | None => t end)
  | _ => let! t := parse_required_literal (lit ")*") t in Ok (l, t)
  end.
(** 2804-2834 [parse_content_spec], with 2836-2877 [parse_children] *)
Definition parse_content_spec (t : str) : res (content * str) :=
  match parse_literal (lit "EMPTY") t with
  | Some t => Ok (CEmpty, t)
  | None =>
    match parse_literal (lit "ANY") t with
    | Some t => Ok (CAny, t)
    | None =>
      match parse_literal (lit "(") t with
      | Some t =>
        let! t := parse_s t in
        match parse_literal (lit "#PCDATA") t with
        | Some t => let! (l, t) := parse_mixed t in Ok (CMixed l, t)
        | None =>
          let! (p, _, t) := parse_group (2 * length t + 2) 0 t in
          let (o, t) := parse_occ t in Ok (CChildren (set_occ p o), t)
        end
      | None => Err XMLError
      end
    end
  end.
(** 2771-2802 [parse_element_decl], after <!ELEMENT; with it the rest of the declaration *)
Definition parse_element_decl (t : str) : res (str * content * str) :=
  let! t := parse_required_s t in
  let! (n, t) := parse_required_name t in
  let! t := parse_required_s t in
  let! (c, t) := parse_content_spec t in
  let! t := parse_s t in
  let! t := parse_required_literal (lit ">") t in
  Ok (n, c, t).
