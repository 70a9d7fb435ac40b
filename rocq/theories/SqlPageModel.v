(** Model of the paging of SQL collections: pyslet/odata2/sqlds.py 425-720, 1090-1275, 5257-5330, 5550-5557.

    The database is modelled as SQL defines it: a query gives the rows of the table for which the condition is true
    (not false, not unknown), sorted by the columns of ORDER BY, then OFFSET and LIMIT.  Values are NULL, integers and
    strings (compared by code points); NULL sorts first, as in SQLite.  The table is what is left by $filter.  A skiptoken
    is modelled as the list of its values, the literals between the commas are left out. *)
From Verif Require Import Py.

(** ** Values and SQL *)
Inductive val := VNull | VInt (n : Z) | VStr (s : str).
Definition code (v : val) : list Z := match v with VNull => [] | VInt n => [0; n] | VStr s => 1 :: s end.
Fixpoint lexcmp (a b : list Z) : comparison :=
  match a, b with
  | [], [] => Eq
  | [], _ => Lt
  | _, [] => Gt
  | x :: a, y :: b => match x ?= y with Eq => lexcmp a b | c => c end
  end.
(** the order of ORDER BY *)
Definition vcmp (a b : val) : comparison := lexcmp (code a) (code b).
(** [r_vals]: the values of the order expressions; [r_key]: of the key columns; [r_data]: the rest *)
Record row := mkrow { r_vals : list val; r_key : list val; r_data : Z }.
Definition r_ord (r : row) : list val := r_vals r ++ r_key r.
(** conditions over the columns of orderNames, with the three truth values *)
Inductive cond := Less (col : nat) (v : val) | Greater (col : nat) (v : val) | Equal (col : nat) (v : val) | COr (a b : cond) | CAnd (a b : cond).
Definition not_null (a b : val) (x : bool) : option bool := match a, b with VNull, _ | _, VNull => None | _, _ => Some x end.
Definition or3 (a b : option bool) : option bool :=
  match a, b with Some true, _ | _, Some true => Some true | Some false, Some false => Some false | _, _ => None end.
Definition and3 (a b : option bool) : option bool :=
  match a, b with Some false, _ | _, Some false => Some false | Some true, Some true => Some true | _, _ => None end.
Fixpoint eval (cols : list val) (c : cond) : option bool :=
  let col i := nth i cols VNull in
  match c with
  | Less i v => not_null (col i) v (match vcmp (col i) v with Lt => true | _ => false end)
  | Greater i v => not_null (col i) v (match vcmp (col i) v with Gt => true | _ => false end)
  | Equal i v => not_null (col i) v (match vcmp (col i) v with Eq => true | _ => false end)
  | COr a b => or3 (eval cols a) (eval cols b)
  | CAnd a b => and3 (eval cols a) (eval cols b)
  end.
Definition holds (c : cond) (r : row) : bool := match eval (r_ord r) c with Some true => true | _ => false end.
(** ORDER BY: sqlds.py 1231-1242 [orderby_clause], DESC if the direction is below 0 *)
Fixpoint ord_cmp (names : list Z) (a b : list val) : comparison :=
  match names, a, b with
  | d :: names, x :: a, y :: b => match (if d <? 0 then vcmp y x else vcmp x y) with Eq => ord_cmp names a b | c => c end
  | _, _, _ => Eq
  end.
Fixpoint insert_row (names : list Z) (r : row) (l : list row) : list row :=
  match l with
  | [] => [r]
  | y :: m => match ord_cmp names (r_ord r) (r_ord y) with Gt => y :: insert_row names r m | _ => r :: l end
  end.
Definition order_rows (names : list Z) (l : list row) : list row := fold_right (insert_row names) [] l.

(** ** The collection *)
(** [sqlite]: SQLiteEntityContainer, otherwise the default container without limits in the query *)
Record config := mkconfig { orderby : list Z; nkeys : nat; sqlite : bool }.
(** sqlds.py 1191-1228 [set_orderby]: orderNames has the directions of orderby, then the keys *)
Definition names (k : config) : list Z := orderby k ++ repeat 1 (nkeys k).
Record coll := mkcoll { top : option Z; skip : option Z; tok : option (list val); topmax : option Z; next : option (list val) }.
(** sqlds.py 530-580 [set_page] *)
Definition set_page (k : config) (t s : option Z) (o : option (list val)) (c : coll) : res coll :=
  match o with
  | None => Ok (mkcoll t s None (topmax c) None)
  | Some vs =>
    let n := (length (orderby k) + nkeys k)%nat in
    if Nat.eqb (length vs) (n + 1) then
      match last vs VNull with
      | VInt i => match s with
                  | Some s => Ok (mkcoll t (Some (s + i)) (Some (removelast vs)) (topmax c) None)
                  | None => Err TypeError
                  end
      | _ => Err ValueError
      end
    else if negb (Nat.eqb (length vs) n) then Err ValueError
    else Ok (mkcoll t s (Some vs) (topmax c) None)
  end.
(** sqlds.py 1145-1189 [where_skiptoken_clause] from column [i] on *)
Fixpoint skip_clause (i : nat) (names : list Z) (vs : list val) : res cond :=
  match names, vs with
  | d :: more, v :: vs =>
    let c := if 0 <? d then Greater i v else Less i v in
    match more with
    | [] => Ok c
    | _ => let! r := skip_clause (S i) more vs in Ok (COr c (CAnd (Equal i v) r))
    end
  | _, _ => Err IndexError
  end.
Definition truthy (o : option Z) : bool := match o with Some n => negb (n =? 0) | None => false end.
(** what limits the query, sqlds.py 5291-5329 and 5550-5557 [limit_clause]: the skip that is left to do, and the rows.
    SQLite has no OFFSET without LIMIT *)
Definition limit_clause (k : config) (s limit : option Z) (l : list row) : res (option Z * list row) :=
  if sqlite k then
    if truthy s && negb (truthy limit) then Err BadSyntax
    else
      let l := if truthy s then skipn (match s with Some s => Z.to_nat s | None => O end) l else l in
      let l := if truthy limit then firstn (match limit with Some n => Z.to_nat n | None => O end) l else l in
      Ok (if truthy s then Some 0 else s, l)
  else Ok (s, l).
(** sqlds.py 599-628: the rows of the query *)
Definition query (k : config) (c : coll) (table : list row) : res (option Z * list row) :=
  let limit := match topmax c with
               | Some m => match top c with Some t => Some (Z.min t m) | None => Some m end
               | None => top c
               end in
  let! table := match tok c with
                | None => Ok table
                | Some vs => let! w := skip_clause 0 (names k) vs in Ok (filter (holds w) table)
                end in
  limit_clause k (skip c) limit (order_rows (names k) table).
Definition tokenlen (vs : list val) : Z := fold_right (fun v n => match v with VStr s => Z.of_nat (length s) + n | _ => n end) 0 vs.
(** sqlds.py 652-678: at the last entity that the provider allows.  [c] is the collection *)
Definition make_token (set_next : bool) (r : row) (c : coll) : res coll :=
  let! vs :=
    if 512 <? tokenlen (r_ord r) then
      match tok c with
      | None => Err TypeError
      | Some vs => Ok (vs ++ [VInt (match topmax c with Some m => m | None => 0 end)])
      end
    else Ok (r_ord r) in
  Ok (if set_next then mkcoll (top c) (Some 0) (Some vs) (topmax c) (Some vs) else mkcoll (top c) (skip c) (tok c) (topmax c) (Some vs)).
(** sqlds.py 633-687, the loop over the rows; [s], [t] and [m] are the local variables skip, top and topmax *)
Fixpoint fetch (set_next : bool) (c : coll) (s t m : option Z) (l : list row) : list row * res coll :=
  match l with
  | [] => ([], Ok (if set_next then mkcoll (Some 0) (Some 0) (tok c) (topmax c) (next c) else c))
  | r :: l =>
    if truthy s then fetch set_next c (option_map (fun s => s - 1) s) t m l
    else
      let at_top := match t with Some t => t - 1 <? 1 | None => false end in
      let go t m := let (p, c) := fetch set_next c s t m l in (r :: p, c) in
      let top_done := ([r], Ok (if set_next then mkcoll (top c) (Some (match skip c with Some s => s | None => 0 end + match top c with Some t => t | None => 0 end))
                                                       (tok c) (topmax c) (next c) else c)) in
      match m with
      | Some m =>
        if m - 1 <? 1 then ([r], make_token set_next r c)
        else if at_top then top_done else go (option_map (fun t => t - 1) t) (Some (m - 1))
      | None => if at_top then top_done else go (option_map (fun t => t - 1) t) None
      end
  end.
(** sqlds.py 591-698 [page_generator], [iterpage] *)
Definition iterpage (k : config) (table : list row) (set_next : bool) (c : coll) : list row * res coll :=
  match top c with
  | Some 0 => ([], Ok c)
  | _ => match query k c table with
         | Err e => ([], Err e)
         | Ok (s, l) => fetch set_next c s (top c) (topmax c) l
         end
  end.
(** A client that calls iterpage(set_next=True) [n] times; the table is [T i] at the [i]th time *)
Fixpoint pages (k : config) (T : nat -> list row) (n : nat) (c : coll) : list (list row) * res coll :=
  match n with
  | O => ([], Ok c)
  | S n => let (p, c) := iterpage k (T O) true c in
           match c with
           | Err e => ([p], Err e)
           | Ok c => let (ps, c) := pages k (fun i => T (S i)) n c in (p :: ps, c)
           end
  end.
(** A client that follows the links to the next page, each with the skiptoken and neither top nor skip (core.py 2927-2953,
    server.py 740-746) *)
Fixpoint follow (k : config) (T : nat -> list row) (n : nat) (c : coll) : list (list row) * res unit :=
  match n with
  | O => ([], Ok tt)
  | S n => let (p, c) := iterpage k (T O) false c in
           match c with
           | Err e => ([p], Err e)
           | Ok c => match next c with
                     | None => ([p], Ok tt)
                     | Some vs =>
                       match set_page k None None (Some vs) c with
                       | Err e => ([p], Err e)
                       | Ok c => let (ps, r) := follow k (fun i => T (S i)) n c in (p :: ps, r)
                       end
                     end
           end
  end.
