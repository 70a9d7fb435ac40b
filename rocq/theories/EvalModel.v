(** Model of the evaluation of OData common expressions,
    pyslet/odata2/core.py 140-215, 452-490, 537-880, 934-1300, 3030-3045 and the values it works on,
    pyslet/odata2/csdl.py 533-602, 850-1075, 1138-1175, 1236-1960.

    Not modelled: the numbers of type Double, Single and Decimal and the date and time values are
    abstract (record [lib]), so is Unicode (lower, upper, white space); the size of an index of a
    string is not bounded by the memory.  An EDM value is a type code (None for the type-less null)
    and the Python object it holds (None for null). *)
From Verif Require Import Py ExprModel.

(** csdl.py 554-570 SimpleType *)
Inductive tc :=
| Binary | Boolean | Byte | DateTime | DateTimeOffset | Time | Decimal | Double | Single | Guid
| Int16 | Int32 | Int64 | String_ | SByte.
Definition tc_eqb (a b : tc) : bool :=
  match a, b with
  | Binary, Binary | Boolean, Boolean | Byte, Byte | DateTime, DateTime
  | DateTimeOffset, DateTimeOffset | Time, Time | Decimal, Decimal | Double, Double
  | Single, Single | Guid, Guid | Int16, Int16 | Int32, Int32 | Int64, Int64 | String_, String_
  | SByte, SByte => true
  | _, _ => false
  end.
Definition tco_eqb (a b : option tc) : bool :=
  match a, b with Some a, Some b => tc_eqb a b | None, None => true | _, _ => false end.
Definition in_tc (t : tc) (l : list tc) : bool := existsb (tc_eqb t) l.

Inductive aop := AMul | AAdd | ASub | ADiv | AMod.
Inductive rel := RLt | RGt | RLe | RGe.
Inductive tfield := FYear | FMonth | FDay | FHour | FMinute | FSecond.
Inductive rnd := RRound | RFloor | RCeiling.
(** Python's floats and decimals ([fl]) and the points in time of iso8601.py ([tm]).
    [f_int t z], [f_conv t f], [f_set t f]: set_from_value of a value of type t with an int, with a
    number of another type, with the result of an operation (csdl.py 1561-1579, 1598-1620);
    [f_bin]: the operators * + - / and math.fmod; [f_rnd]: the calculation of core.py 1243-1296. *)
Record lib := mkLib {
  fl : Type; tm : Type;
  f_int : tc -> Z -> res fl; f_conv : tc -> fl -> res fl; f_set : tc -> fl -> res fl;
  f_bin : aop -> fl -> fl -> res fl; f_neg : fl -> fl;
  f_rel : rel -> fl -> fl -> bool; f_eq : fl -> fl -> bool; f_rnd : rnd -> tc -> fl -> res fl;
  t_rel : rel -> tm -> tm -> bool; t_eq : tm -> tm -> bool; t_field : tfield -> tm -> Z;
  n_lit : fkind -> numeric -> fl; t_lit : tkind -> str -> tm;
  s_lower : str -> str; s_upper : str -> str; s_space : Z -> bool }.

Section Eval.
Variable L : lib.

(** the Python objects that EDM values hold (csdl.py 961-995) *)
Inductive pv :=
| PBool (b : bool) | PInt (z : Z) | PStr (s : str) | PBytes (b : list Z) | PGuid (h : str)
| PNum (f : fl L) | PTime (t : tm L).
(** csdl.py 939 SimpleValue, 2280 Entity (its type name, entity set, key and properties), 2014
    Complex.  A navigation property leads to at most one entity, or to a collection.  An Entity has
    at least one property, so it is always true (csdl.py 2010). *)
Inductive value :=
| OVal (t : option tc) (p : option pv)
| OEnt (type : str) (set key : Z) (props : list (str * slot))
| OCplx (props : list (str * slot))
with slot :=
| SObj (o : value) | SNav (o : option value) | SMany.
Definition null_ : value := OVal None None.
Definition tnull (t : tc) : value := OVal (Some t) None.
Definition bool_ (b : bool) : value := OVal (Some Boolean) (Some (PBool b)).
(** csdl.py 866, 999, 2024: the truth of a value *)
Definition truth (o : value) : bool := match o with OVal _ None => false | _ => true end.

(** core.py 140-147 NUMERIC_TYPES *)
Definition numeric_types : list tc := [Double; Single; Decimal; Int64; Int32; Int16; Byte].
(** core.py 150-183 promote_types *)
Definition promote (a b : option tc) : res (option tc) :=
  if tco_eqb a b then Ok a
  else match a, b with
  | None, _ => Ok b
  | _, None => Ok a
  | Some x, Some y =>
    if negb (in_tc x numeric_types) || negb (in_tc y numeric_types) then Err EvaluationError
    else if tc_eqb Double x || tc_eqb Double y then Ok (Some Double)
    else if tc_eqb Single x || tc_eqb Single y then Ok (Some Single)
    else if tc_eqb Decimal x || tc_eqb Decimal y then Ok (Some Decimal)
    else if tc_eqb Int64 x || tc_eqb Int64 y then Ok (Some Int64)
    else if tc_eqb Int32 x || tc_eqb Int32 y then Ok (Some Int32)
    else if tc_eqb Int16 x || tc_eqb Int16 y then Ok (Some Int16)
    else Ok None
  end.
(** core.py 186-215 can_cast_method_argument *)
Definition can_cast (a : option tc) (b : tc) : bool :=
  match a with
  | None => true
  | Some x =>
    if tc_eqb x b then true
    else match b with
    | Decimal => in_tc x [Decimal; Int64; Int32; Int16]
    | Double | Single | Int64 | Int32 | Int16 | Byte => in_tc x numeric_types
    | _ => false
    end
  end.

(** the range checks of csdl.py 1263-1275, 1796-1806, 1837-1846, 1877-1887, 1944-1953 *)
Definition int_range (t : tc) : option (Z * Z) :=
  match t with
  | Byte => Some (0, 255)
  | SByte => Some (-128, 127)
  | Int16 => Some (-32768, 32767)
  | Int32 => Some (-2147483648, 2147483647)
  | Int64 => Some (-9223372036854775808, 9223372036854775807)
  | _ => None
  end.
(** set_from_value of a new value of type [t] with a Python object other than None: csdl.py
    1138-1150, 1168-1175, 1263-1275, 1545-1565, 1598-1622, 1757-1771, 1796, 1837, 1877, 1904,
    1944.  Pairs that promote_types and can_cast_method_argument exclude are TypeErrors here. *)
Definition set_from (t : tc) (p : pv) : res pv :=
  match t, p with
  | Boolean, PBool b => Ok (PBool b)
  | Binary, PBytes b => Ok (PBytes b)
  | Binary, PStr _ => Err ValueError
  | String_, PStr s => Ok (PStr s)
  | Guid, PGuid h => Ok (PGuid h)
  | (DateTime | DateTimeOffset | Time), PTime x => Ok (PTime x)
  | (Double | Single | Decimal), PInt z => let! f := f_int L t z in Ok (PNum f)
  | (Double | Single | Decimal), PNum f => let! g := f_conv L t f in Ok (PNum g)
  | _, PInt z =>
    match int_range t with
    | Some (lo, hi) => if (z <? lo) || (hi <? z) then Err ValueError else Ok (PInt z)
    | None => Err TypeError
    end
  | _, _ => Err TypeError
  end.
(** csdl.py 1002-1026 simple_cast and cast *)
Definition simple_cast (t : tc) (vt : option tc) (vp : option pv) : res (option pv) :=
  if tco_eqb vt (Some t) then Ok vp
  else match vt, vp with
  | None, _ => Ok None
  | _, None => Ok None
  | _, Some p => let! q := set_from t p in Ok (Some q)
  end.

(** ** Integers and floating point: float(int), / and int(float) on binary64.
    [rne]: the nearest integer to n/d, ties to even.  [ilog p q]: the k with 2^k <= p/q < 2^(k+1).
    [fround p q]: the binary64 number m / 2^s nearest to p/q (p, q > 0; no overflow or subnormal
    number can arise from Int64). *)
Definition rne (n d : Z) : Z :=
  let q := n / d in
  let r := n mod d in
  if 2 * r <? d then q else if d <? 2 * r then q + 1 else if Z.even q then q else q + 1.
Definition ilog (p q : Z) : Z :=
  let k := Z.log2 p - Z.log2 q in
  if p * 2 ^ Z.max 0 (- k) <? q * 2 ^ Z.max 0 k then k - 1 else k.
Definition fround (p q : Z) : Z * Z :=
  let s := 52 - ilog p q in
  (rne (p * 2 ^ Z.max 0 s) (q * 2 ^ Z.max 0 (- s)), s).
(** the integer part of m / 2^s *)
Definition ftrunc (f : Z * Z) : Z := let (m, s) := f in m * 2 ^ Z.max 0 (- s) / 2 ^ Z.max 0 s.
Definition with_sign (sg v : Z) : Z := if sg <? 0 then - v else v.
(** float(z), an integer *)
Definition float_int (z : Z) : Z := if z =? 0 then 0 else with_sign z (ftrunc (fround (Z.abs z) 1)).
(** core.py 648: int(float(a) / float(b)) *)
Definition int_div (a b : Z) : res Z :=
  let x := float_int a in
  let y := float_int b in
  if y =? 0 then Err ZeroDivisionError
  else if x =? 0 then Ok 0
  else Ok (with_sign (x * y) (ftrunc (fround (Z.abs x) (Z.abs y)))).
(** core.py 680: int(math.fmod(float(a), float(b))); fmod is exact and has the sign of a *)
Definition int_mod (a b : Z) : res Z :=
  let x := float_int a in
  let y := float_int b in
  if y =? 0 then Err ValueError else Ok (Z.rem x y).

Definition arith (o : aop) (p q : pv) : res pv :=
  match p, q with
  | PInt a, PInt b =>
    let! z := match o with
              | AMul => Ok (a * b) | AAdd => Ok (a + b) | ASub => Ok (a - b)
              | ADiv => int_div a b | AMod => int_mod a b
              end in Ok (PInt z)
  | PNum a, PNum b => let! f := f_bin L o a b in Ok (PNum f)
  | _, _ => Err TypeError
  end.
Definition op_types : list tc := [Int32; Int64; Single; Double; Decimal].
(** set_from_value of a result of type [t] with the result of an operation *)
Definition set_result (t : tc) (p : pv) : res pv :=
  match p with PNum f => let! g := f_set L t f in Ok (PNum g) | _ => set_from t p end.
(** the common part of core.py 613-628, 630-657, 659-688, 690-722.  The exceptions that div and mod
    turn into EvaluationError: 656, 687; only the operands' and the result's conversion can raise
    ValueError inside mod besides fmod itself. *)
Definition wrap (o : aop) {A} (r : res A) : res A :=
  match o, r with
  | (ADiv | AMod), Err ZeroDivisionError => Err EvaluationError
  | AMod, Err ValueError => Err EvaluationError
  | _, _ => r
  end.
Definition eval_arith (o : aop) (l r : value) : res value :=
  match l, r with
  | OVal lt lp, OVal rt rp =>
    wrap o (
      let! t := promote lt rt in
      match t with
      | None => Ok (tnull Int32)
      | Some t =>
        if in_tc t op_types then
          let! lp := simple_cast t lt lp in
          let! rp := simple_cast t rt rp in
          match lp, rp with
          | Some a, Some b => let! v := arith o a b in let! v := set_result t v in Ok (OVal (Some t) (Some v))
          | _, _ => Ok (tnull t)
          end
        else Err EvaluationError
      end)
  | _, _ => Err EvaluationError
  end.

(** x < y on lists of code points (also hexadecimal digits of a UUID: int comparison) *)
Fixpoint str_lt (a b : str) : bool :=
  match a, b with
  | _, nil => false
  | nil, _ :: _ => true
  | x :: a, y :: b => (x <? y) || ((x =? y) && str_lt a b)
  end.
Definition rel_of (lt : bool) (eq : bool) (r : rel) : bool :=
  match r with RLt => lt | RGt => negb (lt || eq) | RLe => lt || eq | RGe => negb lt end.
(** the Python operators < > <= >= *)
Definition compare_ (r : rel) (p q : option pv) : res bool :=
  match p, q with
  | Some (PInt a), Some (PInt b) => Ok (rel_of (a <? b) (a =? b) r)
  | Some (PNum a), Some (PNum b) => Ok (f_rel L r a b)
  | Some (PStr a), Some (PStr b) => Ok (rel_of (str_lt a b) (str_eqb a b) r)
  | Some (PGuid a), Some (PGuid b) => Ok (rel_of (str_lt a b) (str_eqb a b) r)
  | Some (PTime a), Some (PTime b) => Ok (t_rel L r a b)
  | _, _ => Err TypeError
  end.
(** == *)
Definition equal_ (p q : option pv) : bool :=
  match p, q with
  | None, None => true
  | Some (PInt a), Some (PInt b) => a =? b
  | Some (PBool a), Some (PBool b) => Bool.eqb a b
  | Some (PNum a), Some (PNum b) => f_eq L a b
  | Some (PStr a), Some (PStr b) => str_eqb a b
  | Some (PGuid a), Some (PGuid b) => str_eqb a b
  | Some (PBytes a), Some (PBytes b) => str_eqb a b
  | Some (PTime a), Some (PTime b) => t_eq L a b
  | _, _ => false
  end.
(** core.py 736-765 evaluate_relation *)
Definition eval_rel (rl : rel) (l r : value) : res value :=
  match l, r with
  | OVal lt lp, OVal rt rp =>
    let! t := promote lt rt in
    match t with
    | None => Ok (bool_ false)
    | Some t =>
      if in_tc t op_types then
        let! lp := simple_cast t lt lp in
        let! rp := simple_cast t rt rp in
        match lp, rp with
        | Some _, Some _ => let! b := compare_ rl lp rp in Ok (bool_ b)
        | _, _ => Ok (bool_ false)
        end
      else if in_tc t [String_; DateTime; DateTimeOffset; Guid] then
        let! b := compare_ rl lp rp in Ok (bool_ b)
      else Err EvaluationError
    end
  | _, _ => Err EvaluationError
  end.
(** core.py 801-834 evaluate_eq *)
Definition eval_eq (l r : value) : res value :=
  match l, r with
  | OEnt _ s k _, OEnt _ s' k' _ => Ok (bool_ ((s =? s') && (k =? k')))
  | OVal lt lp, OVal rt rp =>
    let! t := promote lt rt in
    match t with
    | None => Ok (bool_ true)
    | Some t =>
      if in_tc t op_types then
        let! lp := simple_cast t lt lp in
        let! rp := simple_cast t rt rp in
        Ok (bool_ (equal_ lp rp))
      else if in_tc t [String_; DateTime; DateTimeOffset; Guid; Binary] then Ok (bool_ (equal_ lp rp))
      else Err EvaluationError
    end
  | _, _ => Err EvaluationError
  end.
(** core.py 836-839 evaluate_ne *)
Definition eval_ne (l r : value) : res value :=
  let! v := eval_eq l r in
  match v with
  | OVal t (Some (PBool b)) => Ok (OVal t (Some (PBool (negb b))))
  | _ => Err TypeError
  end.
(** core.py 841-880 evaluate_and, evaluate_or *)
Definition eval_logic (op : bool -> bool -> bool) (l r : value) : res value :=
  match l, r with
  | OVal lt lp, OVal rt rp =>
    let! t := promote lt rt in
    match t with
    | None => Ok (bool_ false)
    | Some Boolean =>
      match lp, rp with
      | Some (PBool a), Some (PBool b) => Ok (bool_ (op a b))
      | Some _, Some _ => Err TypeError
      | _, _ => Ok (bool_ false)
      end
    | Some _ => Err EvaluationError
    end
  | _, _ => Err EvaluationError
  end.
(** core.py 456-473 evaluate_negate: 0 - value *)
Definition eval_neg (v : value) : res value :=
  match v with
  | OVal vt vp =>
    let! (vt, vp) :=
      match vt with
      | Some (Byte | Int16) => let! p := simple_cast Int32 vt vp in Ok (Some Int32, p)
      | Some Single => let! p := simple_cast Double vt vp in Ok (Some Double, p)
      | _ => Ok (vt, vp)
      end in
    match vt with
    | None => Ok (tnull Int32)
    | Some t =>
      if in_tc t [Int32; Int64; Double; Decimal] then
        match vp with
        | None => Ok (tnull t)
        | Some (PInt z) => let! p := set_result t (PInt (0 - z)) in Ok (OVal (Some t) (Some p))
        | Some (PNum f) => let! p := set_result t (PNum (f_neg L f)) in Ok (OVal (Some t) (Some p))
        | Some _ => Err TypeError
        end
      else Err EvaluationError
    end
  | _ => Err AttributeError
  end.
(** core.py 475-490 evaluate_not *)
Definition eval_not (v : value) : res value :=
  match v with
  | OVal vt (Some p) =>
    match vt, p with
    | Some Boolean, PBool b => Ok (bool_ (negb b))
    | Some Boolean, _ => Err TypeError
    | _, _ => Err EvaluationError
    end
  | OVal _ None => Ok (tnull Boolean)
  | _ => Err EvaluationError
  end.

(** ** Types by name: csdl.py 554-602, xsdatatypes.py 619-627, 845-856 *)
Definition type_names : list (str * tc) :=
  flat_map (fun '(n, l, t) => [(lit "Edm." ++ n, t); (lit "edm." ++ l, t); (n, t); (l, t)])
  [ (lit "Binary", lit "binary", Binary); (lit "Boolean", lit "boolean", Boolean);
    (lit "Byte", lit "byte", Byte); (lit "DateTime", lit "datetime", DateTime);
    (lit "DateTimeOffset", lit "datetimeoffset", DateTimeOffset); (lit "Time", lit "time", Time);
    (lit "Decimal", lit "decimal", Decimal); (lit "Double", lit "double", Double);
    (lit "Single", lit "single", Single); (lit "Guid", lit "guid", Guid);
    (lit "Int16", lit "int16", Int16); (lit "Int32", lit "int32", Int32);
    (lit "Int64", lit "int64", Int64); (lit "String", lit "string", String_);
    (lit "SByte", lit "sbyte", SByte) ].
(** str.strip *)
Fixpoint lstrip (s : str) : str :=
  match s with c :: r => if s_space L c then lstrip r else s | nil => nil end.
Definition strip (s : str) : str := rev (lstrip (rev (lstrip s))).
Definition type_of_name (s : str) : option tc := assoc (strip s) type_names.
Definition type_arg (r : value) : res str :=
  match r with OVal _ (Some (PStr s)) => Ok s | _ => Err AttributeError end.
(** core.py 573-611 evaluate_cast; [l] is None when there is no entity in context *)
Definition eval_cast (l : option value) (r : value) : res value :=
  match l with
  | None | Some (OVal _ None) =>
    let! n := type_arg r in Ok (OVal (type_of_name n) None)
  | Some (OEnt ty _ _ _ as e) =>
    let! n := type_arg r in if str_eqb ty n then Ok e else Err EvaluationError
  | Some (OVal vt (Some p)) =>
    let! n := type_arg r in
    match type_of_name n with
    | None => Err EvaluationError
    | Some t =>
      let! t' := promote (Some t) vt in
      if tco_eqb (Some t) t' then let! q := set_from t p in Ok (OVal (Some t) (Some q))
      else Err EvaluationError
    end
  | Some (OCplx _) => Err EvaluationError
  end.
(** core.py 767-799 evaluate_isof *)
Definition eval_isof (l : option value) (r : value) : res value :=
  match l with
  | None | Some (OVal _ None) => Ok (bool_ false)
  | Some (OEnt ty _ _ _) => let! n := type_arg r in Ok (bool_ (str_eqb ty n))
  | Some (OVal vt (Some _)) =>
    let! n := type_arg r in
    match type_of_name n with
    | None => Err EvaluationError
    | Some t => Ok (bool_ match promote (Some t) vt with Ok t' => tco_eqb (Some t) t' | Err _ => false end)
    end
  | Some (OCplx _) => Err EvaluationError
  end.

(** ** Methods *)
(** core.py 994-1002 promote_param, 1004-1012 check_strict_param: the object held *)
Definition promote_param (a : value) (t : tc) : res (option pv) :=
  match a with
  | OVal vt vp => if can_cast vt t then simple_cast t vt vp else Err EvaluationError
  | _ => Err EvaluationError
  end.
Definition strict_param (a : value) (t : tc) : res (option pv) :=
  match a with
  | OVal vt vp => if tco_eqb vt (Some t) then Ok vp else Err EvaluationError
  | _ => Err EvaluationError
  end.
Fixpoint starts (p s : str) : bool :=
  match p, s with
  | nil, _ => true
  | c :: p, d :: s => (c =? d) && starts p s
  | _ :: _, nil => false
  end.
Definition ends (p s : str) : bool := starts (rev p) (rev s).
(** str.find: the first position, or -1 *)
Fixpoint find_from (i : Z) (p s : str) : Z :=
  if starts p s then i
  else match s with nil => -1 | _ :: r => find_from (i + 1) p r end.
Definition find_ (p s : str) : Z := find_from 0 p s.
(** str.replace: from left to right, occurrences that do not overlap; every gap for an empty [p] *)
Fixpoint replace_from (fuel : nat) (p q s : str) : str :=
  match fuel with
  | O => s
  | S f =>
    if starts p s then q ++ replace_from f p q (skipn (length p) s)
    else match s with nil => nil | c :: r => c :: replace_from f p q r end
  end.
Definition replace_ (p q s : str) : str :=
  match p with
  | nil => q ++ flat_map (fun c => c :: q) s
  | _ => replace_from (S (length s)) p q s
  end.
(** s[i:] and s[i:j] with Python's treatment of negative and large indexes *)
Definition clamp (n i : Z) : Z := if i <? 0 then Z.max 0 (n + i) else Z.min i n.
Definition pyslice (i j : Z) (s : str) : str :=
  let n := Z.of_nat (length s) in
  slice (Z.to_nat (clamp n i)) (Z.to_nat (clamp n j)) s.
Definition ret_bool (b : bool) : res value := Ok (bool_ b).
Definition ret_str (s : str) : res value := Ok (OVal (Some String_) (Some (PStr s))).
Definition ret_int (z : Z) : res value := let! p := set_from Int32 (PInt z) in Ok (OVal (Some Int32) (Some p)).
(** two string parameters, core.py 1014-1037, 1057-1067, 1123-1135; a null result of type [t] if
    one of them is null *)
Definition str1 (par : value -> tc -> res (option pv)) (t : tc) (a : value) (k : str -> res value) : res value :=
  let! x := par a String_ in
  match x with
  | Some (PStr s) => k s
  | Some _ => Err TypeError
  | None => Ok (tnull t)
  end.
Definition str2 (par : value -> tc -> res (option pv)) (t : tc) (a b : value) (k : str -> str -> res value) : res value :=
  let! x := par a String_ in
  let! y := par b String_ in
  match x, y with
  | Some (PStr s), Some (PStr u) => k s u
  | Some _, Some _ => Err TypeError
  | _, _ => Ok (tnull t)
  end.
(** core.py 1162-1233 *)
Definition date_part (f : tfield) (args : list value) : res value :=
  match args with
  | [a] =>
    let! x := strict_param a DateTime in
    match x with
    | Some (PTime t) => ret_int (t_field L f t)
    | Some _ => Err TypeError
    | None => Ok (tnull Int32)
    end
  | _ => Err EvaluationError
  end.
(** core.py 1235-1296: as a Decimal if the argument can be one, else as a Double *)
Definition rounding (r : rnd) (args : list value) : res value :=
  match args with
  | [a] =>
    let go t :=
      let! x := promote_param a t in
      match x with
      | Some (PNum f) => let! g := f_rnd L r t f in let! p := set_result t (PNum g) in Ok (OVal (Some t) (Some p))
      | Some _ => Err TypeError
      | None => Ok (tnull t)
      end in
    match go Decimal with Err EvaluationError => go Double | x => x end
  | _ => Err EvaluationError
  end.
(** core.py 1014-1160 *)
Definition call (m : str) (args : list value) : res value :=
  if str_eqb m (lit "endswith") then
    match args with [a; b] => str2 promote_param Boolean a b (fun s p => ret_bool (ends p s)) | _ => Err EvaluationError end
  else if str_eqb m (lit "startswith") then
    match args with [a; b] => str2 promote_param Boolean a b (fun s p => ret_bool (starts p s)) | _ => Err EvaluationError end
  else if str_eqb m (lit "indexof") then
    match args with [a; b] => str2 promote_param Int32 a b (fun s p => ret_int (find_ p s)) | _ => Err EvaluationError end
  else if str_eqb m (lit "substringof") then
    match args with [a; b] => str2 promote_param Boolean a b (fun p s => ret_bool (0 <=? find_ p s)) | _ => Err EvaluationError end
  else if str_eqb m (lit "replace") then
    match args with
    | [a; b; c] =>
      let! x := promote_param a String_ in
      let! y := promote_param b String_ in
      let! z := promote_param c String_ in
      match x, y, z with
      | Some (PStr s), Some (PStr p), Some (PStr q) => ret_str (replace_ p q s)
      | Some _, Some _, Some _ => Err TypeError
      | _, _, _ => Ok (tnull String_)
      end
    | _ => Err EvaluationError
    end
  else if str_eqb m (lit "tolower") then
    match args with [a] => str1 promote_param String_ a (fun s => ret_str (s_lower L s)) | _ => Err EvaluationError end
  else if str_eqb m (lit "toupper") then
    match args with [a] => str1 promote_param String_ a (fun s => ret_str (s_upper L s)) | _ => Err EvaluationError end
  else if str_eqb m (lit "trim") then
    match args with [a] => str1 promote_param String_ a (fun s => ret_str (strip s)) | _ => Err EvaluationError end
  else if str_eqb m (lit "substring") then
    match args with
    | a :: b :: rest =>
      let! x := strict_param a String_ in
      let! y := strict_param b Int32 in
      let! z := match rest with
                | [] => Ok None
                | [c] => strict_param c Int32
                | _ => Err EvaluationError
                end in
      match x, y with
      | Some (PStr s), Some (PInt i) =>
        match z with
        | Some (PInt n) => ret_str (pyslice i (i + n) s)
        | Some _ => Err TypeError
        | None => ret_str (pyslice i (Z.of_nat (length s)) s)
        end
      | Some _, Some _ => Err TypeError
      | _, _ => Ok (tnull String_)
      end
    | _ => Err EvaluationError
    end
  else if str_eqb m (lit "concat") then
    match args with [a; b] => str2 strict_param String_ a b (fun s u => ret_str (s ++ u)) | _ => Err EvaluationError end
  else if str_eqb m (lit "length") then
    match args with [a] => str1 strict_param Int32 a (fun s => ret_int (Z.of_nat (length s))) | _ => Err EvaluationError end
  else if str_eqb m (lit "year") then date_part FYear args
  else if str_eqb m (lit "month") then date_part FMonth args
  else if str_eqb m (lit "day") then date_part FDay args
  else if str_eqb m (lit "hour") then date_part FHour args
  else if str_eqb m (lit "minute") then date_part FMinute args
  else if str_eqb m (lit "second") then date_part FSecond args
  else if str_eqb m (lit "round") then rounding RRound args
  else if str_eqb m (lit "floor") then rounding RFloor args
  else if str_eqb m (lit "ceiling") then rounding RCeiling args
  else Err KeyError.

(** core.py 934 LiteralExpression.evaluate *)
Definition lit_value (l : lit_) : value :=
  match l with
  | LNull => null_
  | LBool b => bool_ b
  | LInt32 z => OVal (Some Int32) (Some (PInt z))
  | LInt64 z => OVal (Some Int64) (Some (PInt z))
  | LStr s => OVal (Some String_) (Some (PStr s))
  | LBin b => OVal (Some Binary) (Some (PBytes b))
  | LBinText => OVal (Some Binary) (Some (PStr []))
  | LGuid h => OVal (Some Guid) (Some (PGuid h))
  | LNum k n => OVal (Some match k with FDouble => Double | FSingle => Single | FDecimal => Decimal end) (Some (PNum (n_lit L k n)))
  | LTime k t => OVal (Some match k with TDateTime => DateTime | TDateTimeOffset => DateTimeOffset | TTime => Time end) (Some (PTime (t_lit L k t)))
  end.
(** core.py 948-972 PropertyExpression.evaluate *)
Definition eval_prop (ctx : option value) (n : str) : res value :=
  match ctx with
  | None | Some (OVal _ None) => Err EvaluationError
  | Some (OEnt _ _ _ ps) =>
    match assoc n ps with
    | None => Err KeyError
    | Some SMany => Err EvaluationError
    | Some (SNav (Some o)) => Ok o
    | Some (SNav None) => Ok null_
    | Some (SObj o) => Ok o
    end
  | Some (OCplx ps) =>
    match assoc n ps with
    | Some (SObj o) => Ok o
    | _ => Err EvaluationError
    end
  | Some (OVal _ (Some _)) => Err TypeError
  end.
Definition bin_method (o : binop) (l r : value) : res value :=
  match o with
  | BMul => eval_arith AMul l r | BDiv => eval_arith ADiv l r | BMod => eval_arith AMod l r
  | BAdd => eval_arith AAdd l r | BSub => eval_arith ASub l r
  | BLt => eval_rel RLt l r | BGt => eval_rel RGt l r | BLe => eval_rel RLe l r | BGe => eval_rel RGe l r
  | BEq => eval_eq l r | BNe => eval_ne l r
  | BAnd => eval_logic andb l r | BOr => eval_logic orb l r
  | _ => Err KeyError
  end.
(** core.py 452-454 (unary), 537-561 (binary), 989-992 (call) evaluate *)
Fixpoint eval (ctx : option value) (e : expr) : res value :=
  match e with
  | XLit l => Ok (lit_value l)
  | XProp n => eval_prop ctx n
  | XUn o args =>
    match args with
    | nil => Err IndexError
    | None :: _ => Err AttributeError
    | Some r :: _ =>
      let! v := eval ctx r in
      match o with ONeg => eval_neg v | ONot => eval_not v end
    end
  | XBin o args =>
    match args with
    | nil => Err IndexError
    | None :: _ => Err AttributeError
    | Some l :: rest =>
      let! lv := eval ctx l in
      match o with
      | BMember =>
        if truth lv then
          match rest with
          | nil => Err IndexError
          | None :: _ => Err AttributeError
          | Some r :: _ => eval (Some lv) r
          end
        else Ok null_
      | BCast | BIsOf =>
        let f := match o with BCast => eval_cast | _ => eval_isof end in
        match rest with
        | nil => f ctx lv
        | None :: _ => Err AttributeError
        | Some r :: _ => let! rv := eval ctx r in f (Some lv) rv
        end
      | _ =>
        match rest with
        | nil => Err IndexError
        | None :: _ => Err AttributeError
        | Some r :: _ => let! rv := eval ctx r in bin_method o lv rv
        end
      end
    end
  | XCall m args =>
    let! vs := (fix go (l : list (option expr)) : res (list value) :=
                  match l with
                  | nil => Ok nil
                  | None :: _ => Err AttributeError
                  | Some a :: r => let! v := eval ctx a in let! vs := go r in Ok (v :: vs)
                  end) args in
    call m vs
  end.
(** core.py 3030-3045 check_filter; a null counts as False *)
Definition check_filter (filter : option expr) (entity : value) : res bool :=
  match filter with
  | None => Ok true
  | Some e =>
    let! v := eval (Some entity) e in
    match v with
    | OVal (Some Boolean) (Some (PBool b)) => Ok b
    | OVal (Some Boolean) None => Ok false
    | OVal (Some Boolean) (Some _) => Err TypeError
    | _ => Err ValueError
    end
  end.
End Eval.
