(** Model of ProductToken's exploded versions and their order: pyslet/http/params.py 565-650 and
    SortableMixin (pyslet/py2.py 327-425), Python 3.  Tokens and versions are character strings. *)
From Verif Require Import Py Num UriModel HttpModel HttpParamModel.

(** an item of an exploded version: a tuple of these *)
Inductive vval : Set := VInt (n : Z) | VStr (s : str).
Definition vitem := list vval.

(** the longest prefix of digits and the rest: unicode5.py 1265-1298 [parse_digits(1, None)] *)
Fixpoint digits_prefix (s : str) : str * str :=
  match s with
  | c :: r => if is_digit c then let (d, t) := digits_prefix r in (c :: d, t) else ([], s)
  | [] => ([], [])
  end.
(** lines 597-609: the loop for one item.  The arguments are what is left of the version, vitem and modifier. *)
Fixpoint item_loop (fuel : nat) (s : str) (item : vitem) (modifier : str) : vitem * str * str :=
  match fuel with
  | O => (item, modifier, s)
  | S f =>
    match s with
    | [] => (item, modifier, s)
    | c :: r =>
      if c =? 46 then (item, modifier, s)
      else
        match digits_prefix s with
        | ([], _) =>
          item_loop f r (match item with [] => [VInt (-1)] | _ => item end) (modifier ++ [c])
        | (d, t) =>
          item_loop f t ((match modifier with [] => item | _ => item ++ [VStr modifier] end) ++ [VInt (decimal d)]) []
        end
    end
  end.
(** lines 592-617 [explode] *)
Fixpoint explode_loop (fuel : nat) (s : str) : list vitem :=
  match fuel with
  | O => []
  | S f =>
    match s with
    | [] => []
    | _ =>
      let '(item, modifier, t) := item_loop (length s) s [] [] in
      let item := match modifier with
                  | [] => match item with [] => [] | _ => item ++ [VStr (lit "~")] end
                  | _ => item ++ [VStr modifier]
                  end in
      (* lines 616: p.parse(".") *)
      let t := match t with 46 :: r => r | _ => t end in
      item :: explode_loop f t
    end
  end.
Definition explode (version : str) : list vitem := explode_loop (length version) version.
(** lines 565-573: _version *)
Definition pt_exploded (p : product) : list vitem :=
  match pt_version p with Some v => explode v | None => [] end.

(** ** comparison of tuples in Python: the first elements that are different (by ==) are compared, and if there
    are none the lengths; an int and a str are different, and the order of an int and a str raises TypeError *)
Definition veqb (a b : vval) : bool :=
  match a, b with VInt x, VInt y => x =? y | VStr x, VStr y => str_eqb x y | _, _ => false end.
Inductive cmpop : Set := OpLt | OpLe | OpGt | OpGe.
Definition z_cmp (op : cmpop) (x y : Z) : bool :=
  match op with OpLt => x <? y | OpLe => x <=? y | OpGt => y <? x | OpGe => y <=? x end.
Definition s_cmp (op : cmpop) (x y : str) : bool :=
  match op with OpLt => str_ltb x y | OpLe => negb (str_ltb y x) | OpGt => str_ltb y x | OpGe => negb (str_ltb x y) end.
Definition v_cmp (op : cmpop) (a b : vval) : res bool :=
  match a, b with
  | VInt x, VInt y => Ok (z_cmp op x y)
  | VStr x, VStr y => Ok (s_cmp op x y)
  | _, _ => Err TypeError
  end.
Section Tuple.
  Context {A : Type} (eqb : A -> A -> bool) (cmp : cmpop -> A -> A -> res bool).
  Fixpoint t_eqb (a b : list A) : bool :=
    match a, b with
    | [], [] => true
    | x :: a', y :: b' => eqb x y && t_eqb a' b'
    | _, _ => false
    end.
  Fixpoint t_cmp (op : cmpop) (a b : list A) : res bool :=
    match a, b with
    | [], [] => Ok (z_cmp op 0 0)
    | [], _ :: _ => Ok (z_cmp op 0 1)
    | _ :: _, [] => Ok (z_cmp op 1 0)
    | x :: a', y :: b' => if eqb x y then t_cmp op a' b' else cmp op x y
    end.
End Tuple.
Definition i_eqb : vitem -> vitem -> bool := t_eqb veqb.
Definition i_cmp : cmpop -> vitem -> vitem -> res bool := t_cmp veqb v_cmp.
Definition x_eqb : list vitem -> list vitem -> bool := t_eqb i_eqb.
Definition x_cmp : cmpop -> list vitem -> list vitem -> res bool := t_cmp i_eqb i_cmp.
(** lines 648-649 [sortkey]; py2.py 365-425 *)
Definition pt_eq (p q : product) : bool := str_eqb (pt_token p) (pt_token q) && x_eqb (pt_exploded p) (pt_exploded q).
Definition pt_cmp (op : cmpop) (p q : product) : res bool :=
  if str_eqb (pt_token p) (pt_token q) then x_cmp op (pt_exploded p) (pt_exploded q)
  else Ok (s_cmp op (pt_token p) (pt_token q)).
