(** Specification for the evaluation of expressions: the types, which values have them, and which
    expressions are well typed.  Only the types of the models are used. *)
From Verif Require Import Py ExprModel ExprSpec EvalModel.

(** ** Promotion: numeric types in order; null, and equal types, promote to the other *)
Definition rank (t : tc) : option Z :=
  match t with
  | Byte => Some 0 | Int16 => Some 1 | Int32 => Some 2 | Int64 => Some 3 | Decimal => Some 4
  | Single => Some 5 | Double => Some 6
  | _ => None
  end.
(** the least type that both promote to *)
Definition promotes (a t : option tc) : Prop :=
  a = None \/ a = t \/ exists x y m n, a = Some x /\ t = Some y /\ rank x = Some m /\ rank y = Some n /\ m <= n.
Definition join_type (a b t : option tc) : Prop :=
  promotes a t /\ promotes b t /\ forall u, promotes a u -> promotes b u -> promotes t u.

(** ** Values of a type *)
Section Spec.
Variable L : lib.
(** [fits t f]: the number [f] can be the value of an object of type [t] *)
Variable fits : tc -> fl L -> Prop.
Definition in_range (t : tc) (z : Z) : Prop :=
  match t with
  | Byte => 0 <= z <= 255 | SByte => -128 <= z <= 127 | Int16 => -2 ^ 15 <= z < 2 ^ 15
  | Int32 => -2 ^ 31 <= z < 2 ^ 31 | Int64 => -2 ^ 63 <= z < 2 ^ 63
  | _ => False
  end.
Definition is_int (t : tc) : Prop := match t with Byte | SByte | Int16 | Int32 | Int64 => True | _ => False end.
Definition holds (t : tc) (p : pv L) : Prop :=
  match p with
  | PBool _ _ => t = Boolean
  | PInt _ z => is_int t /\ in_range t z
  | PStr _ _ => t = String_
  | PBytes _ _ => t = Binary
  | PGuid _ _ => t = Guid
  | PNum _ f => (t = Double \/ t = Single \/ t = Decimal) /\ fits t f
  | PTime _ _ => t = DateTime \/ t = DateTimeOffset \/ t = Time
  end.
(** the types that arithmetic is defined on *)
Definition arith_type (t : tc) : Prop := match t with Int32 | Int64 | Single | Double | Decimal => True | _ => False end.

(** what is asked of the library: an integer, and a number of a narrower type, can be converted;
    the result of an operation can be out of range (ValueError), and for div, mod, round, floor and
    ceiling there are further exceptions; the parts of a date are small; printing ASCII characters
    are no white space *)
Definition number_type (t : tc) : Prop := t = Double \/ t = Single \/ t = Decimal.
Definition yields (t : tc) (r : res (fl L)) (E : exn -> Prop) : Prop :=
  match r with Ok f => fits t f | Err e => E e end.
Record lib_ok : Prop := {
  lk_int : forall t z, number_type t -> -2 ^ 63 <= z < 2 ^ 63 -> yields t (f_int L t z) (fun _ => False);
  lk_conv : forall s t m n f, rank s = Some m -> rank t = Some n -> m <= n -> number_type s -> fits s f ->
    yields t (f_conv L t f) (fun _ => False);
  lk_bin : forall t o a b, number_type t -> fits t a -> fits t b ->
    yields t (let! f := f_bin L o a b in f_set L t f)
      (fun e => e = ValueError \/ (o = ADiv /\ e = ZeroDivisionError) \/ (o = ADiv /\ t = Decimal /\ e = InvalidOperation));
  lk_neg : forall t f, number_type t -> fits t f -> yields t (f_set L t (f_neg L f)) (fun e => e = ValueError);
  lk_rnd : forall r t f, t = Double \/ t = Decimal -> fits t f ->
    yields t (let! x := f_rnd L r t f in f_set L t x)
      (fun e => e = ValueError \/ (t = Double /\ e = OverflowError));
  lk_lit : forall k n, fits match k with FDouble => Double | FSingle => Single | FDecimal => Decimal end (n_lit L k n);
  lk_field : forall f t, -2 ^ 31 <= t_field L f t < 2 ^ 31;
  lk_space : forall c, 33 <= c <= 126 -> s_space L c = false }.

(** ** Types of expressions *)
(** what a property holds: a simple value, a complex value, at most one entity, many entities *)
Inductive sty :=
| SSimple (t : tc) | SComplex (fs : list (str * sty)) | SOne (fs : list (str * sty)) | SColl.
Inductive conforms : slot L -> sty -> Prop :=
| cf_simple t p : match p with Some q => holds t q | None => True end -> conforms (SObj L (OVal L (Some t) p)) (SSimple t)
| cf_complex ps fs : fields ps fs -> conforms (SObj L (OCplx L ps)) (SComplex fs)
| cf_none fs : conforms (SNav L None) (SOne fs)
| cf_one ty s k ps fs : fields ps fs -> conforms (SNav L (Some (OEnt L ty s k ps))) (SOne fs)
| cf_many : conforms (SMany L) SColl
with fields : list (str * slot L) -> list (str * sty) -> Prop :=
| fd_nil : fields [] []
| fd_cons n v s ps fs : conforms v s -> fields ps fs -> fields ((n, v) :: ps) ((n, s) :: fs).
(** the context of an expression: an entity or a complex value with these properties *)
Record context := mkCtx { c_ent : bool; c_fields : list (str * sty) }.
Definition context_ok (c : context) (v : value L) : Prop :=
  exists ps, fields ps (c_fields c) /\
    (if c_ent c then exists ty s k, v = OEnt L ty s k ps else v = OCplx L ps).

Inductive ty := Val (t : option tc) | Struct (c : context).
(** a null that comes from a navigation property without an entity has no type, and the null that
    arithmetic makes from it can have another numeric type than the expression *)
Definition null_type (t' : option tc) (t : option tc) : Prop :=
  t' = None \/ t' = t \/ exists x y, t' = Some x /\ t = Some y /\ arith_type x /\ arith_type y.
Definition inhabits (T : ty) (v : value L) : Prop :=
  match T with
  | Val t => exists t' p, v = OVal L t' p /\
      match p with None => null_type t' t | Some q => t' = t /\ exists x, t = Some x /\ holds x q end
  | Struct c => v = OVal L None None \/ context_ok c v
  end.

Definition lit_type (l : lit_) : option (option tc) :=
  match l with
  | LNull => Some None
  | LBool _ => Some (Some Boolean)
  | LInt32 z => if (-2147483648 <=? z) && (z <=? 2147483647) then Some (Some Int32) else None
  | LInt64 z => if (-9223372036854775808 <=? z) && (z <=? 9223372036854775807) then Some (Some Int64) else None
  | LStr _ => Some (Some String_)
  | LBin _ => Some (Some Binary)
  | LBinText => None
  | LGuid _ => Some (Some Guid)
  | LNum FDouble _ => Some (Some Double) | LNum FSingle _ => Some (Some Single) | LNum FDecimal _ => Some (Some Decimal)
  | LTime TDateTime _ => Some (Some DateTime) | LTime TDateTimeOffset _ => Some (Some DateTimeOffset)
  | LTime TTime _ => Some (Some Time)
  end.
Definition type_name (t : tc) : str :=
  match t with
  | Binary => lit "Edm.Binary" | Boolean => lit "Edm.Boolean" | Byte => lit "Edm.Byte"
  | DateTime => lit "Edm.DateTime" | DateTimeOffset => lit "Edm.DateTimeOffset" | Time => lit "Edm.Time"
  | Decimal => lit "Edm.Decimal" | Double => lit "Edm.Double" | Single => lit "Edm.Single"
  | Guid => lit "Edm.Guid" | Int16 => lit "Edm.Int16" | Int32 => lit "Edm.Int32"
  | Int64 => lit "Edm.Int64" | String_ => lit "Edm.String" | SByte => lit "Edm.SByte"
  end.
Definition neg_type (t t' : option tc) : Prop :=
  match t with
  | None | Some (Byte | Int16 | Int32) => t' = Some Int32
  | Some Int64 => t' = Some Int64
  | Some (Single | Double) => t' = Some Double
  | Some Decimal => t' = Some Decimal
  | _ => False
  end.
Definition is_arith (o : opr) : bool := match o with Mul | Div | Mod | Add | Sub => true | _ => false end.
Definition is_order (o : opr) : bool := match o with Lt | Gt | Le | Ge => true | _ => false end.
Definition is_equality (o : opr) : bool := match o with Eq | Ne => true | _ => false end.
Definition is_logic (o : opr) : bool := match o with And | Or => true | _ => false end.
Definition small (t : option tc) : Prop := t = Some Byte \/ t = Some Int16.
(** the operands of an operator on numbers: they have a common type that arithmetic is defined on,
    or are both null *)
Definition num_operands (A : exn -> Prop) (a b t : option tc) : Prop :=
  join_type a b t /\ match t with Some x => arith_type x | None => True end /\
  (small a \/ small b -> A EvaluationError).
Definition num_arg (t : option tc) : Prop := match t with None => True | Some x => rank x <> None end.
(** methods on strings that take null as well, with the types of their arguments *)
Definition string_methods : list (str * nat * tc) :=
  [ (lit "endswith", 2%nat, Boolean); (lit "startswith", 2%nat, Boolean); (lit "substringof", 2%nat, Boolean);
    (lit "indexof", 2%nat, Int32); (lit "replace", 3%nat, String_); (lit "tolower", 1%nat, String_);
    (lit "toupper", 1%nat, String_); (lit "trim", 1%nat, String_) ].
(** methods whose arguments must have just these types *)
Definition strict_methods : list (str * list tc * tc) :=
  [ (lit "substring", [String_; Int32], String_); (lit "substring", [String_; Int32; Int32], String_);
    (lit "concat", [String_; String_], String_); (lit "length", [String_], Int32);
    (lit "year", [DateTime], Int32); (lit "month", [DateTime], Int32); (lit "day", [DateTime], Int32);
    (lit "hour", [DateTime], Int32); (lit "minute", [DateTime], Int32); (lit "second", [DateTime], Int32) ].
Definition round_methods : list str := [lit "round"; lit "floor"; lit "ceiling"].
Definition round_type (t : option tc) : tc :=
  match t with Some (Single | Double | Byte) => Double | _ => Decimal end.

(** [has_type A c a T]: in the context [c], [a] has type [T], and evaluating it can only raise the
    exceptions [A]: ValueError for numbers out of range (and strings longer than Int32 can say),
    EvaluationError for division by zero (and some nulls without a type), InvalidOperation for 0 div 0
    of Decimals, OverflowError for rounding an infinite Double, TypeError for an ordering of strings,
    dates and Guids (one of which could be null) *)
Section Typing.
Variable A : exn -> Prop.
Inductive has_type : context -> ast -> ty -> Prop :=
| ht_lit c l t : lit_type l = Some t -> has_type c (Lit l) (Val t)
| ht_simple c n t : assoc n (c_fields c) = Some (SSimple t) -> has_type c (Prop_ n) (Val (Some t))
| ht_complex c n fs : assoc n (c_fields c) = Some (SComplex fs) -> has_type c (Prop_ n) (Struct (mkCtx false fs))
| ht_nav c n fs : c_ent c = true -> assoc n (c_fields c) = Some (SOne fs) -> has_type c (Prop_ n) (Struct (mkCtx true fs))
| ht_member c a n c' T : has_type c a (Struct c') -> has_type c' (Prop_ n) T -> has_type c (Member a n) T
| ht_neg c a t t' : has_type c a (Val t) -> neg_type t t' -> A ValueError -> has_type c (Neg a) (Val t')
| ht_not c a t : has_type c a (Val t) -> t = None \/ t = Some Boolean -> has_type c (Not a) (Val (Some Boolean))
| ht_arith c o a b ta tb t : is_arith o = true -> has_type c a (Val ta) -> has_type c b (Val tb) ->
    num_operands A ta tb t -> A ValueError -> (o = Div \/ o = Mod -> A EvaluationError) ->
    (o = Div -> t = Some Decimal -> A InvalidOperation) ->
    has_type c (Bin o a b) (Val (match t with None => Some Int32 | _ => t end))
| ht_order c o a b ta tb t : is_order o = true -> has_type c a (Val ta) -> has_type c b (Val tb) ->
    num_operands A ta tb t -> has_type c (Bin o a b) (Val (Some Boolean))
| ht_order_other c o a b ta tb t : is_order o = true -> has_type c a (Val ta) -> has_type c b (Val tb) ->
    join_type ta tb (Some t) -> In t [String_; DateTime; DateTimeOffset; Guid] -> A TypeError ->
    has_type c (Bin o a b) (Val (Some Boolean))
| ht_eq c o a b ta tb t : is_equality o = true -> has_type c a (Val ta) -> has_type c b (Val tb) ->
    num_operands A ta tb t -> has_type c (Bin o a b) (Val (Some Boolean))
| ht_eq_other c o a b ta tb t : is_equality o = true -> has_type c a (Val ta) -> has_type c b (Val tb) ->
    join_type ta tb (Some t) -> In t [String_; DateTime; DateTimeOffset; Guid; Binary] ->
    has_type c (Bin o a b) (Val (Some Boolean))
| ht_logic c o a b ta tb : is_logic o = true -> has_type c a (Val ta) -> has_type c b (Val tb) ->
    ta = None \/ ta = Some Boolean -> tb = None \/ tb = Some Boolean ->
    has_type c (Bin o a b) (Val (Some Boolean))
| ht_cast c a ta t : has_type c a (Val ta) -> promotes ta (Some t) -> has_type c (Cast a (type_name t)) (Val (Some t))
| ht_isof c a ta t : has_type c a (Val ta) -> has_type c (IsOf a (type_name t)) (Val (Some Boolean))
| ht_isof1 c n : c_ent c = true -> has_type c (IsOf1 n) (Val (Some Boolean))
| ht_string c m n args t : In (m, n, t) string_methods -> length args = n ->
    has_types c args (fun ta => ta = None \/ ta = Some String_) -> (t = Int32 -> A ValueError) ->
    has_type c (Call m args) (Val (Some t))
| ht_strict c m args ts t : In (m, ts, t) strict_methods -> has_types2 c args ts ->
    A EvaluationError -> (m = lit "length" -> A ValueError) -> has_type c (Call m args) (Val (Some t))
| ht_round c m a ta : In m round_methods -> has_type c a (Val ta) -> num_arg ta -> A ValueError ->
    (round_type ta = Double -> A OverflowError) ->
    has_type c (Call m [a]) (Val (Some (round_type ta)))
with has_types : context -> list ast -> (option tc -> Prop) -> Prop :=
| hts_nil c P : has_types c [] P
| hts_cons c a l ta (P : option tc -> Prop) : has_type c a (Val ta) -> P ta -> has_types c l P -> has_types c (a :: l) P
with has_types2 : context -> list ast -> list tc -> Prop :=
| ht2_nil c : has_types2 c [] []
| ht2_cons c a l t ts : has_type c a (Val (Some t)) -> has_types2 c l ts -> has_types2 c (a :: l) (t :: ts).
End Typing.
End Spec.

(** ** Integers *)
(** div truncates towards zero, mod has the sign of the dividend *)
Definition exact_op (o : aop) (a b : Z) : Z :=
  match o with AMul => a * b | AAdd => a + b | ASub => a - b | ADiv => Z.quot a b | AMod => Z.rem a b end.
Definition exact_rel (r : rel) (a b : Z) : bool :=
  match r with RLt => a <? b | RGt => b <? a | RLe => a <=? b | RGe => b <=? a end.

(** ** Comparisons *)
(** the order and equality of numbers and times, of which the library is a parameter *)
Record order_ok (L : lib) : Prop := {
  ok_feq : forall a b, f_eq L a b = f_eq L b a; ok_teq : forall a b, t_eq L a b = t_eq L b a;
  ok_flt : forall a b, f_rel L RGt b a = f_rel L RLt a b; ok_fle : forall a b, f_rel L RGe b a = f_rel L RLe a b;
  ok_tlt : forall a b, t_rel L RGt b a = t_rel L RLt a b; ok_tle : forall a b, t_rel L RGe b a = t_rel L RLe a b }.
Definition mirror (r : rel) : rel := match r with RLt => RGt | RGt => RLt | RLe => RGe | RGe => RLe end.

(** ** Strings *)
(** [at_ p s n]: there is an occurrence of p in s after n characters *)
Definition at_ (p s : str) (n : nat) : Prop := exists a b, s = a ++ p ++ b /\ length a = n.
(** [replaced p q s t]: t is s with the occurrences of p, from the left, replaced by q *)
Inductive replaced (p q : str) : str -> str -> Prop :=
| rp_none s : (forall n, ~ at_ p s n) -> replaced p q s s
| rp_next a b t : (forall n, (n < length a)%nat -> ~ at_ p (a ++ p ++ b) n) -> replaced p q b t -> replaced p q (a ++ p ++ b) (a ++ q ++ t).
