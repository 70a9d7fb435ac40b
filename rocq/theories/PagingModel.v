(** Model of the paging and ordering of entity collections: pyslet/odata2/csdl.py, as used by memds.py.

    The entities are records of a key and the values of the order expressions.  The key is an integer (any type of
    key has a total order), a value is an integer or None.  A page is iterated to its end. *)
From Verif Require Import Py.

(** ** Order *)
(** [e_vals]: the values of the expressions of orderby, one for each rule (core.py 3046-3049) *)
Record entity := mkentity { e_key : Z; e_vals : list (option Z) }.
Definition val (i : nat) (e : entity) : option Z := nth i (e_vals e) None.

(** list.sort is stable, also with reverse=True.  [before a b]: a may stay in front of b *)
Fixpoint put_in (before : entity -> entity -> bool) (x : entity) (l : list entity) : list entity :=
  match l with
  | [] => [x]
  | y :: r => if before x y then x :: l else y :: put_in before x r
  end.
Definition stable_sort (before : entity -> entity -> bool) (l : list entity) : list entity := fold_right (put_in before) [] l.
(** sort with a key that may be None: every element of a list of two or more is compared, and None has no order *)
Definition sort_by (key : entity -> option Z) (reverse : bool) (l : list entity) : res (list entity) :=
  match l with
  | [] | [_] => Ok l
  | _ =>
    if existsb (fun e => match key e with None => true | Some _ => false end) l then Err TypeError
    else Ok (stable_sort (fun a b => match key a, key b with
                                     | Some x, Some y => if reverse then y <=? x else x <=? y
                                     | _, _ => true
                                     end) l)
  end.
(** the loop over reversed(orderby), csdl.py 3119-3121; a direction below 0 is descending *)
Fixpoint sort_rules (rules : list (nat * Z)) (l : list entity) : res (list entity) :=
  match rules with
  | [] => Ok l
  | (i, dir) :: rules => let! l := sort_rules rules l in sort_by (val i) (dir <? 0) l
  end.
(** csdl.py 3100-3127 [order_entities]; [orderby] is [] for None *)
Definition order_entities (paging : bool) (orderby : list Z) (l : list entity) : res (list entity) :=
  let l := if paging then stable_sort (fun a b => e_key a <=? e_key b) l else l in
  sort_rules (combine (seq 0 (length orderby)) orderby) l.

(** ** Pages *)
(** "%X" % n *)
Definition hex_digit (d : Z) : Z := if d <? 10 then 48 + d else 55 + d.
Fixpoint hex_loop (fuel : nat) (n : Z) (acc : str) : str :=
  match fuel with
  | O => acc
  | S fuel => let acc := hex_digit (n mod 16) :: acc in if n <? 16 then acc else hex_loop fuel (n / 16) acc
  end.
Definition hex (n : Z) : str :=
  if n <? 0 then 45 :: hex_loop (S (Z.to_nat (- n))) (- n) [] else hex_loop (S (Z.to_nat n)) n [].
(** int(s, 16), for characters below 128: spaces around, a sign, 0x, single underscores between digits *)
Definition is_space (c : Z) : bool := ((9 <=? c) && (c <=? 13)) || ((28 <=? c) && (c <=? 32)).
Definition hex_val (c : Z) : option Z :=
  if (48 <=? c) && (c <=? 57) then Some (c - 48)
  else if (65 <=? c) && (c <=? 70) then Some (c - 55)
  else if (97 <=? c) && (c <=? 102) then Some (c - 87)
  else None.
Fixpoint lstrip (s : str) : str := match s with c :: r => if is_space c then lstrip r else s | [] => [] end.
Fixpoint int_digits (s : str) (acc : Z) : option Z :=
  match s with
  | [] => Some acc
  | c :: r =>
    match hex_val c with
    | Some d => int_digits r (16 * acc + d)
    | None => if c =? 95 then match r with
                              | c' :: r' => match hex_val c' with Some d => int_digits r' (16 * acc + d) | None => None end
                              | [] => None
                              end
              else None
    end
  end.
Definition int_unsigned (s : str) : option Z :=
  let s := match s with 48 :: x :: r => if (x =? 120) || (x =? 88) then match r with 95 :: r => r | _ => r end else s | _ => s end in
  match s with
  | [] => None
  | c :: r => match hex_val c with Some d => int_digits r d | None => None end
  end.
Definition int16 (s : str) : option Z :=
  match rev (lstrip (rev (lstrip s))) with
  | 45 :: r => option_map Z.opp (int_unsigned r)
  | 43 :: r => int_unsigned r
  | s => int_unsigned s
  end.

(** the attributes of a collection that paging uses *)
Record coll := mkcoll { top : option Z; skip : option Z; token : option str; topmax : option Z; next : option str }.
(** csdl.py 3249-3265 [set_page] *)
Definition set_page (c : coll) (t s : option Z) (k : option str) : coll := mkcoll t s k (topmax c) None.
Definition set_topmax (c : coll) (m : option Z) : coll := mkcoll (top c) (skip c) (token c) m (next c).
Definition set_nextt (c : coll) (n : option str) : coll := mkcoll (top c) (skip c) (token c) (topmax c) n.
(** csdl.py 3301-3309: the first entity of the page *)
Definition emin_of (c : coll) : Z :=
  let emin := match token c with Some s => match int16 s with Some n => n | None => 0 end | None => 0 end in
  match skip c with Some s => s + emin | None => emin end.
(** csdl.py 3310-3324: emax, and the next skiptoken *)
Definition emax_of (c : coll) : option Z * option str :=
  let emin := emin_of c in
  match topmax c with
  | Some m =>
    if m =? 0 then (match top c with None => None | Some t => Some (emin + t) end, None)
    else match top c with
         | Some t => if m <? t then (Some (emin + m), Some (hex (emin + m))) else (Some (emin + t), None)
         | None => (Some (emin + m), Some (hex (emin + m)))
         end
  | None => (match top c with None => None | Some t => Some (emin + t) end, None)
  end.
Section Loop.
  Context {V : Type}.
  (** csdl.py 3327-3332 *)
  Fixpoint loop_all (emin i : Z) (l : list V) : list V :=
    match l with
    | [] => []
    | e :: r => if emin <=? i then e :: loop_all emin (i + 1) r else loop_all emin (i + 1) r
    end.
  (** csdl.py 3333-3350; the value of i if the loop was left, None at the end of the collection *)
  Fixpoint loop_max (emin emax i : Z) (l : list V) : list V * option Z :=
    match l with
    | [] => ([], None)
    | e :: r =>
      if i <? emin then loop_max emin emax (i + 1) r
      else if i <? emax then let (p, o) := loop_max emin emax (i + 1) r in (e :: p, o)
      else ([], Some i)
    end.
  (** csdl.py 3283-3356 [iterpage], where [l] is what itervalues gives *)
  Definition iterpage (l : list V) (set_next : bool) (c : coll) : list V * coll :=
    match top c with
    | Some 0 => ([], c)
    | _ =>
      let emin := emin_of c in
      let (emax, nx) := emax_of c in
      let c := set_nextt c nx in
      let done := if set_next then mkcoll (Some 0) (Some 0) None (topmax c) (next c) else c in
      match emax with
      | None => (loop_all emin 0 l, done)
      | Some emax =>
        let (p, o) := loop_max emin emax 0 l in
        match o with
        | Some i =>
          (p, if set_next then match nx with
                               | None => mkcoll (top c) (Some i) None (topmax c) (next c)
                               | Some n => mkcoll (top c) None (Some n) (topmax c) (next c)
                               end
              else c)
        | None => (p, done)
        end
      end
    end.
  (** A client that calls iterpage(set_next=True) [n] times; the collection shows [l i] the [i]th time *)
  Fixpoint pages (l : nat -> list V) (n : nat) (c : coll) : list (list V) * coll :=
    match n with
    | O => ([], c)
    | S n => let (p, c) := iterpage (l O) true c in
             let (ps, c) := pages (fun i => l (S i)) n c in (p :: ps, c)
    end.
  (** A client that follows the links to the next page (core.py 2927-2953, server.py 740-746): each request sets the page
      with what is in the link, the skiptoken but neither top nor skip *)
  Fixpoint follow (l : list V) (n : nat) (c : coll) : list (list V) :=
    match n with
    | O => []
    | S n => let (p, c) := iterpage l false c in
             p :: match next c with
                  | None => []
                  | Some t => follow l n (set_page c None None (Some t))
                  end
    end.
End Loop.
