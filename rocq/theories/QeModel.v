(** QTI expressions: pyslet/qtiv2/expressions.py, operators on single values and containers, and their values,
    variables.py 97-245 (checks), 245-420 (Value), 432-470, 472-830 (single values), 830-970 (containers).
    Simplified: real numbers, files, URIs and records are opaque (arithmetic on floats is left out); a dictionary of a
    multiple container is the list of its entries in insertion order, and get_values follows that order (sorted in the
    code, which nothing here can observe); values of sub-expressions are of the type they claim, on which
    SingleValue.new_value is the identity, so that only its errors are modelled; integers are taken to be equal to
    their floats in comparisons (they are below 2^53); str.lower is a parameter. *)
From Verif Require Import Py.

(** core.py: under the name of an exception that this code does not raise *)
Definition ProcessingError : exn := EvaluationError.

(** variables.py 60-110 *)
Inductive base := Boolean | DirectedPair | Duration | File | Float | Identifier | Integer | Pair | Point | String_ | Uri.
(** 168-190 *)
Inductive card := Multiple | Ordered | Record_ | Single.
(** 262-330: single values in Python's representation *)
Inductive dat := DBool (b : bool) | DInt (z : Z) | DStr (s : str) | DPair (a b : str) | DPoint (x y : Z) | DReal (n : nat) | DFile (n : nat) | DUri (n : nat).
(** a single value, a list, a dictionary with frequencies, a record *)
Inductive payload := PS (d : dat) | PL (l : list dat) | PM (m : list (dat * nat)) | PR (n : nat).
Record value := V { vcard : option card; vbase : option base; vval : option payload }.
Definition base_dec : forall a b : base, {a = b} + {a <> b}. Proof. decide equality. Defined.
Definition card_dec : forall a b : card, {a = b} + {a <> b}. Proof. decide equality. Defined.
Definition dat_dec : forall a b : dat, {a = b} + {a <> b}.
Proof. decide equality; try apply Z.eq_dec; try apply Nat.eq_dec; try apply Bool.bool_dec; try apply (list_eq_dec Z.eq_dec). Defined.
Definition dat_eqb (a b : dat) : bool := if dat_dec a b then true else false.
(** 364-378 __bool__ *)
Definition nonnull (v : value) : bool := match vval v with Some _ => true | None => false end.

(** 113-128 *)
Fixpoint check_base_types_from (r : option base) (l : list (option base)) : res (option base) :=
  match l with
  | [] => Ok r
  | None :: l => check_base_types_from r l
  | Some b :: l => match r with
                   | None => check_base_types_from (Some b) l
                   | Some b' => if base_dec b b' then check_base_types_from r l else Err ProcessingError
                   end
  end.
Definition check_base_types := check_base_types_from None.
(** 131-149 *)
Fixpoint check_numerical_from (r : option base) (l : list (option base)) : res (option base) :=
  match l with
  | [] => Ok r
  | None :: l => check_numerical_from r l
  | Some b :: l =>
      if base_dec b Float then (match r with None => check_numerical_from (Some b) l | Some b' => check_numerical_from (Some (if base_dec b b' then b' else Float)) l end)
      else if base_dec b Integer then (match r with None => check_numerical_from (Some b) l | Some b' => check_numerical_from (Some (if base_dec b b' then b' else Float)) l end)
      else Err ProcessingError
  end.
Definition check_numerical_types := check_numerical_from None.
(** 184-199 *)
Fixpoint check_cardinalities_from (r : option card) (l : list (option card)) : res (option card) :=
  match l with
  | [] => Ok r
  | None :: l => check_cardinalities_from r l
  | Some b :: l => match r with
                   | None => check_cardinalities_from (Some b) l
                   | Some b' => if card_dec b b' then check_cardinalities_from r l else Err ProcessingError
                   end
  end.
Definition check_cardinalities := check_cardinalities_from None.

(** ** Values *)
(** BooleanValue(b), IntegerValue(z) (682-716), and with no value *)
Definition BooleanValue (b : option bool) : value := V (Some Single) (Some Boolean) (match b with Some b => Some (PS (DBool b)) | None => None end).
Definition in_range (z : Z) : bool := (-2147483648 <=? z) && (z <=? 2147483647).
Definition IntegerValue (z : option Z) : res value :=
  match z with
  | None => Ok (V (Some Single) (Some Integer) None)
  | Some z => if in_range z then Ok (V (Some Single) (Some Integer) (Some (PS (DInt z)))) else Err ValueError
  end.
(** SingleValue.new_value(b, d).value for a d of that type: the class of files takes no value *)
Definition renew (b : option base) (d : dat) : res dat :=
  match b with
  | None => Err ValueError
  | Some File => Err TypeError
  | Some Integer => match d with DInt z => if in_range z then Ok d else Err ValueError | _ => Ok d end
  | Some _ => Ok d
  end.
Fixpoint renew_all (b : option base) (l : list dat) : res (list dat) :=
  match l with [] => Ok [] | d :: l => let! d := renew b d in let! l := renew_all b l in Ok (d :: l) end.
(** 885-915: OrderedContainer.set_value *)
Definition ordered_of (b : option base) (l : list dat) : res value :=
  let! l := renew_all b l in Ok (V (Some Ordered) b (match l with [] => None | _ => Some (PL l) end)).
(** 932-962: MultipleContainer.set_value *)
Fixpoint dict_get (m : list (dat * nat)) (d : dat) : option nat :=
  match m with [] => None | (k, n) :: m => if dat_eqb k d then Some n else dict_get m d end.
Fixpoint dict_add (m : list (dat * nat)) (d : dat) : list (dat * nat) :=
  match m with [] => [(d, 1%nat)] | (k, n) :: m => if dat_eqb k d then (k, S n) :: m else (k, n) :: dict_add m d end.
Definition multiple_of (b : option base) (l : list dat) : res value :=
  let! l := renew_all b l in
  Ok (V (Some Multiple) b (match fold_left dict_add l [] with [] => None | m => Some (PM m) end)).
(** 964-970 get_values *)
Definition dict_values (m : list (dat * nat)) : list dat := flat_map (fun '(k, n) => repeat k n) m.
(** 861-874 Container.new_value *)
Definition container_new (c : option card) (b : option base) : res value :=
  match c with
  | Some Single => Err ValueError
  | Some Record_ => Ok (V c None None)
  | _ => Ok (V c b None)
  end.
(** 383-398: ==; None stands for NullResult *)
Definition dict_eq (m m' : list (dat * nat)) : bool :=
  Nat.eqb (length m) (length m') && forallb (fun '(k, n) => match dict_get m' k with Some n' => Nat.eqb n n' | None => false end) m.
Fixpoint list_eqb (a b : list dat) : bool :=
  match a, b with [], [] => true | x :: a, y :: b => dat_eqb x y && list_eqb a b | _, _ => false end.
Definition payload_eq (p q : payload) : res bool :=
  match p, q with
  | PS a, PS b => Ok (dat_eqb a b)
  | PL a, PL b => Ok (list_eqb a b)
  | PM a, PM b => Ok (dict_eq a b)
  | PR _, PR _ => Err Unmodelled
  | _, _ => Ok false
  end.
Definition value_eq (v w : value) : res (option bool) :=
  let! _ := check_cardinalities [vcard v; vcard w] in
  let! b := check_base_types [vbase v; vbase w] in
  match b with
  | Some Duration => Err ProcessingError
  | _ => match vval v, vval w with
         | Some p, Some q => let! b := payload_eq p q in Ok (Some b)
         | _, _ => Ok None
         end
  end.

(** ** Operators on the values of the sub-expressions *)
(** expressions.py 432-461 (Multiple) and 480-511 (Ordered): the loop *)
Fixpoint collect (ord : bool) (b : option base) (l : list value) : res (option base * list dat) :=
  match l with
  | [] => Ok (b, [])
  | v :: l =>
      match vbase v with
      | None => collect ord b l
      | Some bv =>
          let! b := match b with None => Ok (Some bv) | Some b' => if base_dec b' bv then Ok b else Err ProcessingError end in
          match vval v with
          | None => collect ord b l
          | Some p =>
              let! x := match vcard v, p with
                        | Some Single, PS d => Ok [d]
                        | Some Multiple, PM m => if ord then Err ProcessingError else Ok (dict_values m)
                        | Some Ordered, PL l => if ord then Ok l else Err ProcessingError
                        | _, _ => Err ProcessingError
                        end in
              let! (b, r) := collect ord b l in Ok (b, x ++ r)
          end
      end
  end.
Definition op_multiple (l : list value) : res value := let! (b, r) := collect false None l in multiple_of b r.
Definition op_ordered (l : list value) : res value := let! (b, r) := collect true None l in ordered_of b r.
(** 526-546 *)
Definition op_size (v : value) : res value :=
  match vcard v, vval v with
  | Some Ordered, Some (PL l) => IntegerValue (Some (Z.of_nat (length l)))
  | Some Multiple, Some (PM m) => IntegerValue (Some (fold_left (fun s '(_, n) => s + Z.of_nat n) m 0))
  | (Some Ordered | Some Multiple), _ => IntegerValue (Some 0)
  | _, _ => Err ProcessingError
  end.
(** 562-568 *)
Definition op_is_null (v : value) : res value := Ok (BooleanValue (Some (negb (nonnull v)))).
(** SingleValue.new_value(b), which gives the class of files the value None that it does not take *)
Definition fresh (b : option base) : res value := match b with Some File => Err TypeError | _ => Ok (V (Some Single) b None) end.
(** 594-611 *)
Definition op_index (n : Z) (v : value) : res value :=
  match vcard v with
  | Some Ordered =>
      let! r := fresh (vbase v) in
      match vval v with
      | Some (PL l) =>
          if n <? 1 then Err ProcessingError
          else match nth_error l (Z.to_nat (n - 1)) with
               | Some d => let! d := renew (vbase v) d in Ok (V (Some Single) (vbase v) (Some (PS d)))
               | None => Ok r
               end
      | _ => Ok r
      end
  | _ => Err ProcessingError
  end.
Definition two {A} (f : value -> value -> res A) (l : list value) : res A :=
  match l with [v; w] => f v w | _ => Err ProcessingError end.
(** 706-740 *)
Definition op_member (v w : value) : res value :=
  match vbase v, vbase w with
  | Some bv, Some bw =>
      if base_dec bv bw then
        if base_dec bv Duration then Err ProcessingError
        else match vval v, vval w with
             | Some p, Some q =>
                 match vcard v, p with
                 | Some Single, PS d =>
                     match vcard w, q with
                     | Some Ordered, PL l => Ok (BooleanValue (Some (existsb (dat_eqb d) l)))
                     | Some Multiple, PM m => Ok (BooleanValue (Some (match dict_get m d with Some _ => true | None => false end)))
                     | _, _ => Err ProcessingError
                     end
                 | _, _ => Err ProcessingError
                 end
             | _, _ => Ok (BooleanValue None)
             end
      else Err ProcessingError
  | _, _ => Ok (BooleanValue None)
  end.
(** 758-804 *)
Definition op_delete (v w : value) : res value :=
  match vbase w, vbase v with
  | None, _ => container_new (vcard w) (vbase v)
  | _, None => container_new (vcard w) (vbase w)
  | Some bw, Some bv =>
      if base_dec bv bw then
        if base_dec bv Duration then Err ProcessingError
        else match vcard v with
             | Some Single | None =>
                 match vcard w with
                 | Some Ordered | Some Multiple | None =>
                     match vval v, vval w with
                     | Some (PS d), Some (PL l) => ordered_of (vbase w) (filter (fun x => negb (dat_eqb d x)) l)
                     | Some (PS d), Some (PM m) => multiple_of (vbase w) (filter (fun x => negb (dat_eqb d x)) (dict_values m))
                     | _, _ => container_new (vcard w) (vbase w)
                     end
                 | _ => Err ProcessingError
                 end
             | _ => Err ProcessingError
             end
      else Err ProcessingError
  end.
(** 836-848: the naive search; whether l begins with a *)
Fixpoint begins (a l : list dat) : bool :=
  match a, l with [], _ => true | x :: a, y :: l => dat_eqb x y && begins a l | _, [] => false end.
Fixpoint search (a l : list dat) : bool := begins a l || match l with [] => false | _ :: l => search a l end.
(** 822-868 *)
Definition op_contains (v w : value) : res value :=
  let! b := check_base_types [vbase v; vbase w] in
  let! c := check_cardinalities [vcard v; vcard w] in
  match b with
  | Some Duration => Err ProcessingError
  | _ =>
      match c, b with
      | None, _ | _, None => Ok (BooleanValue None)
      | Some c, Some _ =>
          match vval v, vval w with
          | Some p, Some q =>
              match c, p, q with
              | Ordered, PL a, PL l => Ok (BooleanValue (Some (search a l)))
              | Multiple, PM m, PM m' =>
                  Ok (BooleanValue (Some (forallb (fun '(k, n) => Nat.leb n (match dict_get m' k with Some n' => n' | None => O end)) m)))
              | _, _, _ => Err ProcessingError
              end
          | _, _ => Ok (BooleanValue None)
          end
      end
  end.
(** 931-940 *)
Definition op_not (v : value) : res value :=
  let! _ := check_base_types [vbase v; Some Boolean] in
  let! _ := check_cardinalities [vcard v; Some Single] in
  match vval v with
  | Some (PS (DBool b)) => Ok (BooleanValue (Some (negb b)))
  | Some _ => Err Unmodelled
  | None => Ok (BooleanValue None)
  end.
Definition check_booleans (l : list value) : res (option base) :=
  let! _ := check_cardinalities (Some Single :: map vcard l) in
  check_base_types (Some Boolean :: map vbase l).
(** 956-971: the loop, with result *)
Fixpoint and_loop (r : option bool) (l : list value) : option bool :=
  match l with
  | [] => r
  | v :: l => match vval v with
              | Some (PS (DBool false)) => Some false
              | None => and_loop None l
              | _ => and_loop r l
              end
  end.
Definition op_and (l : list value) : res value := let! _ := check_booleans l in Ok (BooleanValue (and_loop (Some true) l)).
(** 988-1003 *)
Fixpoint or_loop (r : option bool) (l : list value) : option bool :=
  match l with
  | [] => r
  | v :: l => match vval v with
              | Some (PS (DBool true)) => Some true
              | None => or_loop None l
              | _ => or_loop r l
              end
  end.
Definition op_or (l : list value) : res value := let! _ := check_booleans l in Ok (BooleanValue (or_loop (Some false) l)).
(** 1034-1066; the bounds are NULL if they refer to a template variable that is NULL *)
Definition truths (l : list value) : Z := Z.of_nat (length (filter (fun v => match vval v with Some (PS (DBool true)) => true | _ => false end) l)).
Definition nulls (l : list value) : Z := Z.of_nat (length (filter (fun v => negb (nonnull v)) l)).
Definition op_anyn (mn mx : option Z) (l : list value) : res value :=
  let! _ := check_booleans l in
  let t := truths l in
  let n := nulls l in
  match mn with
  | None => Err TypeError
  | Some mn =>
      if mn <=? t then
        match mx with
        | None => Err TypeError
        | Some mx => if mx <? t then Ok (BooleanValue (Some false))
                     else if mx <? t + n then Ok (BooleanValue None)
                     else Ok (BooleanValue (Some true))
        end
      else if mn <=? t + n then Ok (BooleanValue None)
      else Ok (BooleanValue (Some false))
  end.
(** 1084-1093 *)
Definition op_match (v w : value) : res value := let! r := value_eq v w in Ok (BooleanValue r).
Section Lower.
  (** str.lower *)
  Variable lower : str -> str.
  Definition starts (a l : str) : bool := str_eqb a (firstn (length a) l).
  Fixpoint infix (a l : str) : bool := starts a l || match l with [] => false | _ :: l => infix a l end.
  (** 896-915 (SubString), and 1125-1149 (StringMatch) with its two attributes *)
  Definition op_string (f : str -> str -> bool) (cs : bool) (v w : value) : res value :=
    let! _ := check_base_types [vbase v; vbase w; Some String_] in
    let! _ := check_cardinalities [vcard v; vcard w; Some Single] in
    match vval v, vval w with
    | Some (PS (DStr a)), Some (PS (DStr b)) => Ok (BooleanValue (Some (if cs then f a b else f (lower a) (lower b))))
    | Some _, Some _ => Err Unmodelled
    | _, _ => Ok (BooleanValue None)
    end.
End Lower.
(** 1694-1721 and 1738-1765: f is + or *, z the number to begin with *)
Fixpoint accumulate (f : Z -> Z -> Z) (s : Z) (l : list value) : res (option Z) :=
  match l with
  | [] => Ok (Some s)
  | v :: l => match vval v with
              | Some (PS (DInt z)) => accumulate f (f s z) l
              | Some _ => Err Unmodelled
              | None => Ok None
              end
  end.
Definition op_fold (f : Z -> Z -> Z) (z : Z) (l : list value) : res value :=
  match l with
  | [] => Err ProcessingError
  | _ =>
      let! _ := check_cardinalities (Some Single :: map vcard l) in
      let! b := check_numerical_types (map vbase l) in
      match b with
      | None => Ok (V (Some Single) None None)
      | Some Integer => let! s := accumulate f z l in IntegerValue s
      | Some _ => Err Unmodelled
      end
  end.
(** 1782-1808 *)
Definition op_subtract (v w : value) : res value :=
  let! b := check_numerical_types [vbase v; vbase w] in
  let! _ := check_cardinalities [vcard v; vcard w; Some Single] in
  match b with
  | None => Ok (V (Some Single) None None)
  | Some Integer =>
      match vval v, vval w with
      | Some (PS (DInt x)), Some (PS (DInt y)) => IntegerValue (Some (x - y))
      | Some _, Some _ => Err Unmodelled
      | _, _ => IntegerValue None
      end
  | Some _ => Err Unmodelled
  end.
(** 1901-1919 and 1937-1955: // and % *)
Definition op_integer (f : Z -> Z -> Z) (v w : value) : res value :=
  let! _ := check_base_types [vbase v; vbase w; Some Integer] in
  let! _ := check_cardinalities [vcard v; vcard w; Some Single] in
  match vval v, vval w with
  | Some (PS (DInt x)), Some (PS (DInt y)) => if y =? 0 then IntegerValue None else IntegerValue (Some (f x y))
  | Some _, Some _ => Err Unmodelled
  | _, _ => IntegerValue None
  end.
(** 1493-1608: lt, gt, lte, gte *)
Definition op_compare (f : Z -> Z -> bool) (v w : value) : res value :=
  let! _ := check_numerical_types [vbase v; vbase w] in
  let! _ := check_cardinalities [vcard v; vcard w; Some Single] in
  match vval v, vval w with
  | Some (PS (DInt x)), Some (PS (DInt y)) => Ok (BooleanValue (Some (f x y)))
  | Some _, Some _ => Err Unmodelled
  | _, _ => Ok (BooleanValue None)
  end.

(** ** Expressions *)
Inductive nop := NMultiple | NOrdered | NMember | NDelete | NContains | NSubString (cs : bool) | NAnd | NOr | NAnyN (mn mx : option Z) | NMatch
  | NStringMatch (cs sub : bool) | NSum | NProduct | NSubtract | NDivide | NModulus | NLT | NGT | NLTE | NGTE.
Inductive uop := USize | UIsNull | UIndex (n : Z) | UNot.
(** a leaf gives a value: baseValue, variable, default, correct (125-220) *)
Inductive expr := Leaf (v : value) | Null | EN (o : nop) (l : list expr) | EU (o : uop) (e : expr).
Section Eval.
  Variable lower : str -> str.
  Definition apply_n (o : nop) (l : list value) : res value :=
    match o with
    | NMultiple => op_multiple l
    | NOrdered => op_ordered l
    | NMember => two op_member l
    | NDelete => two op_delete l
    | NContains => two op_contains l
    | NSubString cs => two (op_string lower infix cs) l
    | NAnd => op_and l
    | NOr => op_or l
    | NAnyN mn mx => op_anyn mn mx l
    | NMatch => two op_match l
    | NStringMatch cs sub => two (op_string lower (if sub then infix else str_eqb) cs) l
    | NSum => op_fold Z.add 0 l
    | NProduct => op_fold Z.mul 1 l
    | NSubtract => two op_subtract l
    | NDivide => two (op_integer Z.div) l
    | NModulus => two (op_integer Z.modulo) l
    | NLT => two (op_compare Z.ltb) l
    | NGT => two (op_compare Z.gtb) l
    | NLTE => two (op_compare Z.leb) l
    | NGTE => two (op_compare Z.geb) l
    end.
  Definition apply_u (o : uop) (v : value) : res value :=
    match o with USize => op_size v | UIsNull => op_is_null v | UIndex n => op_index n v | UNot => op_not v end.
  (** 398-402 evaluate_children: from the left; 312-314 Null *)
  Fixpoint evaluate (e : expr) : res value :=
    match e with
    | Leaf v => Ok v
    | Null => Ok (V None None None)
    | EN o l =>
        let! vs := (fix children (l : list expr) : res (list value) :=
                      match l with [] => Ok [] | e :: l => let! v := evaluate e in let! vs := children l in Ok (v :: vs) end) l in
        apply_n o vs
    | EU o e => let! v := evaluate e in apply_u o v
    end.
End Eval.

(** ** Mappings and tables *)
(** dictionaries with the later entries first *)
Fixpoint assoc {A} (m : list (dat * A)) (d : dat) : option A :=
  match m with [] => None | (k, a) :: m => if dat_eqb k d then Some a else assoc m d end.
Record mapping := Mapping { lower_bound : option Z; upper_bound : option Z; default_value : Z; entries : list (dat * Z) }.
(** 1231-1247 content_changed: a later entry replaces an earlier one *)
Definition map_of (l : list (dat * Z)) : list (dat * Z) := rev l.
(** 1271-1280: each value once *)
Fixpoint map_sum (m : mapping) (been : list dat) (l : list dat) : Z :=
  match l with
  | [] => 0
  | d :: l => if existsb (dat_eqb d) been then map_sum m been l
              else match assoc (map_of (entries m)) d with Some x => x | None => default_value m end + map_sum m (d :: been) l
  end.
(** 1249-1293 map_value; floats are whole numbers here, and NULL None *)
Definition map_value (m : mapping) (v : value) : res (option Z) :=
  let! (null, l) := match vval v with
                    | None => Ok (true, [])
                    | Some (PS d) => Ok (false, [d])
                    | Some (PL l) => Ok (false, l)
                    | Some (PM d) => Ok (false, map fst d)
                    | Some (PR _) => Err ValueError
                    end in
  let null := match vbase v with None => true | Some _ => null end in
  let r := map_sum m [] l in
  if null : bool then Ok (Some 0)
  else match lower_bound m with
       | Some lo => if r <? lo then Ok (Some lo)
                    else match upper_bound m with Some hi => if hi <? r then Ok (Some hi) else Ok (Some r) | None => Ok (Some r) end
       | None => match upper_bound m with Some hi => if hi <? r then Ok (Some hi) else Ok (Some r) | None => Ok (Some r) end
       end.
(** 1635-1656 MatchTable.lookup; targets are numbered, None is NULL *)
Fixpoint zassoc {A} (m : list (Z * A)) (z : Z) : option A := match m with [] => None | (k, a) :: m => if k =? z then Some a else zassoc m z end.
Definition match_lookup (table : list (Z * option nat)) (default : option nat) (v : value) : res (option nat) :=
  match vval v with
  | None => Ok None
  | Some p =>
      match vcard v, vbase v, p with
      | Some Single, Some Integer, PS (DInt z) => Ok (match zassoc (rev table) z with Some t => t | None => default end)
      | _, _, _ => Err ValueError
      end
  end.
(** 1719-1744 InterpolationTable.lookup; source values of integer type only *)
Fixpoint interpolate (table : list (Z * bool * option nat)) (default : option nat) (z : Z) : option nat :=
  match table with
  | [] => default
  | (x, lte, t) :: table => if (x <? z) || (lte && (x =? z)) then t else interpolate table default z
  end.
Definition interpolation_lookup (table : list (Z * bool * option nat)) (default : option nat) (v : value) : res (option nat) :=
  match vval v with
  | None => Ok None
  | Some p =>
      match vcard v, vbase v, p with
      | Some Single, Some Integer, PS (DInt z) => Ok (interpolate table default z)
      | Some Single, Some (Float | Duration), PS _ => Err Unmodelled
      | _, _, _ => Err ValueError
      end
  end.
