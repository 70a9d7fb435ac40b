(** Specification of OData common expressions: the expressions, their grammar (MS-ODATA 2.2.3.6.1,
    commonExpression, with its table of operator precedences; operators of the same category
    associate to the left) and what is asked of the library tables.  Only the types [env], [lit_],
    [expr] of the model are used. *)
From Verif Require Import Py ExprModel.

(** ** What is asked of the library: true of the Unicode tables and of str.lower *)
Definition ascii_lower (c : Z) : Z := if (65 <=? c) && (c <=? 90) then c + 32 else c.
Definition is_letter (c : Z) : Prop := 65 <= c <= 90 \/ 97 <= c <= 122.
Definition reserved_char (c : Z) : Prop := In c (lit " '()/,-.:") \/ c = 9.
Record env_ok (E : env) : Prop := {
  ok_start : forall c, idstart E c = true -> idchar E c = true;
  ok_letter : forall c, is_letter c -> idstart E c = true;
  ok_char : forall c, idchar E c = true -> ~ reserved_char c;
  ok_digit : forall c, idstart E c = true -> ~ (48 <= c <= 57);
  ok_lower : forall s, (forall c, In c s -> 0 <= c < 128) -> lower E s = map ascii_lower s;
  ok_lower_head : forall c s, 0 <= c < 128 -> exists t, lower E (c :: s) = ascii_lower c :: t;
  ok_lower_in : forall c s, 0 <= c < 128 -> In c s -> In (ascii_lower c) (lower E s) }.

(** ** Expressions *)
Inductive opr := Mul | Div | Mod | Add | Sub | Lt | Gt | Le | Ge | Eq | Ne | And | Or.
Inductive ast :=
| Lit (l : lit_)
| Prop_ (name : str)
| Neg (a : ast) | Not (a : ast)
| Bin (o : opr) (a b : ast)
| Member (a : ast) (name : str)                        (* a/name *)
| Cast (a : ast) (type : str) | IsOf (a : ast) (type : str)
| Cast1 (type : str) | IsOf1 (type : str)              (* of the entity in context *)
| Call (method : str) (args : list ast).

Definition oname (o : opr) : str :=
  match o with
  | Mul => lit "mul" | Div => lit "div" | Mod => lit "mod" | Add => lit "add" | Sub => lit "sub"
  | Lt => lit "lt" | Gt => lit "gt" | Le => lit "le" | Ge => lit "ge" | Eq => lit "eq"
  | Ne => lit "ne" | And => lit "and" | Or => lit "or"
  end.
(** the table of precedences: the higher, the tighter *)
Definition level (o : opr) : nat :=
  match o with
  | Or => 1 | And => 2 | Eq | Ne => 3 | Lt | Gt | Le | Ge => 4 | Add | Sub => 5
  | Mul | Div | Mod => 6
  end%nat.
Definition unary_level : nat := 7.
Definition primary_level : nat := 8.

(** the object that represents an expression in the API *)
Definition obin (o : opr) : binop :=
  match o with
  | Mul => BMul | Div => BDiv | Mod => BMod | Add => BAdd | Sub => BSub | Lt => BLt | Gt => BGt
  | Le => BLe | Ge => BGe | Eq => BEq | Ne => BNe | And => BAnd | Or => BOr
  end.
Fixpoint obj (a : ast) : expr :=
  match a with
  | Lit l => XLit l
  | Prop_ n => XProp n
  | Neg a => XUn ONeg [Some (obj a)]
  | Not a => XUn ONot [Some (obj a)]
  | Bin o a b => XBin (obin o) [Some (obj a); Some (obj b)]
  | Member a n => XBin BMember [Some (obj a); Some (XProp n)]
  | Cast a t => XBin BCast [Some (obj a); Some (XLit (LStr t))]
  | IsOf a t => XBin BIsOf [Some (obj a); Some (XLit (LStr t))]
  | Cast1 t => XBin BCast [Some (XLit (LStr t))]
  | IsOf1 t => XBin BIsOf [Some (XLit (LStr t))]
  | Call m l => XCall m (map (fun a => Some (obj a)) l)
  end.

(** ** Tokens *)
Section Grammar.
Variable E : env.

(** simple identifiers: components separated by full stops *)
Inductive ident_text : str -> Prop :=
| id_one c r : idstart E c = true -> (forall d, In d r -> idchar E d = true) -> ident_text (c :: r)
| id_dot a b : ident_text a -> ~ In 46 a -> ident_text b -> ident_text (a ++ lit "." ++ b).
(** identifiers that introduce a literal (in any case, but X), or an operator *)
Definition literal_words : list str :=
  [lit "null"; lit "true"; lit "false"; lit "datetimeoffset"; lit "datetime"; lit "time"; lit "binary";
   lit "nand"; lit "nanf"; lit "infd"; lit "inff"; lit "guid"].
Definition reserved (n : str) : Prop :=
  In (lower E n) literal_words \/ In n [lit "X"; lit "not"; lit "isof"; lit "cast"].
Definition property_name (n : str) : Prop := ident_text n /\ ~ reserved n.
Definition method_name (n : str) : Prop :=
  In n [lit "endswith"; lit "indexof"; lit "replace"; lit "startswith"; lit "tolower";
        lit "toupper"; lit "trim"; lit "substring"; lit "substringof"; lit "concat"; lit "length";
        lit "year"; lit "month"; lit "day"; lit "hour"; lit "minute"; lit "second"; lit "round";
        lit "floor"; lit "ceiling"].

(** numbers in decimal *)
Inductive decimal : str -> Z -> Prop :=
| dec_one d : 0 <= d <= 9 -> decimal [48 + d] d
| dec_more s n d : decimal s n -> 0 <= d <= 9 -> decimal (s ++ [48 + d]) (10 * n + d).
Inductive signed : nat -> str -> Z -> Prop :=
| sg_pos k s n : decimal s n -> (length s <= k)%nat -> signed k s n
| sg_neg k s n : decimal s n -> (length s <= k)%nat -> signed k (45 :: s) (- n).
(** the content of a quoted string *)
Inductive quoted : str -> str -> Prop :=
| q_nil : quoted [] []
| q_quote s v : quoted s v -> quoted (39 :: 39 :: s) (39 :: v)
| q_char c s v : c <> 39 -> quoted s v -> quoted (c :: s) (c :: v).
(** hexadecimal digits of either case *)
Inductive hexdigit : Z -> Z -> Prop :=
| hx_digit d : 0 <= d <= 9 -> hexdigit (48 + d) d
| hx_upper d : 10 <= d <= 15 -> hexdigit (55 + d) d
| hx_lower d : 10 <= d <= 15 -> hexdigit (87 + d) d.
Inductive hexbytes : str -> list Z -> Prop :=
| hb_nil : hexbytes [] []
| hb_cons a b x y s l : hexdigit a x -> hexdigit b y -> hexbytes s l ->
    hexbytes (a :: b :: s) (16 * x + y :: l).
(** 8-4-4-4-12 hexadecimal digits, against the 32 digits in lower case *)
Definition guid_text (s h : str) : Prop := exists a b c d e,
  s = a ++ lit "-" ++ b ++ lit "-" ++ c ++ lit "-" ++ d ++ lit "-" ++ e
  /\ length a = 8%nat /\ length b = 4%nat /\ length c = 4%nat /\ length d = 4%nat /\ length e = 12%nat
  /\ (forall x, In x (a ++ b ++ c ++ d ++ e) -> exists v, hexdigit x v)
  /\ h = map ascii_lower (a ++ b ++ c ++ d ++ e).

Inductive literal_text : lit_ -> str -> Prop :=
| lt_null s : ident_text s -> lower E s = lit "null" -> literal_text LNull s
| lt_true s : ident_text s -> lower E s = lit "true" -> literal_text (LBool true) s
| lt_false s : ident_text s -> lower E s = lit "false" -> literal_text (LBool false) s
| lt_int32 s n : signed 10 s n -> -2147483648 <= n <= 2147483647 -> literal_text (LInt32 n) s
| lt_int64 s n c : signed 19 s n -> -9223372036854775808 <= n <= 9223372036854775807 ->
    In c (lit "Ll") -> literal_text (LInt64 n) (s ++ [c])
| lt_str s v : quoted s v -> literal_text (LStr v) (lit "'" ++ s ++ lit "'")
| lt_bin s l : hexbytes s l -> s <> [] -> literal_text (LBin l) (lit "X'" ++ s ++ lit "'")
| lt_guid s h : guid_text s h -> literal_text (LGuid h) (lit "guid'" ++ s ++ lit "'").

(** white space, possibly none, and at least one *)
Definition ws (w : str) : Prop := forall c, In c w -> c = 32 \/ c = 9.
Definition ws1 (w : str) : Prop := ws w /\ w <> [].

(** a minus sign followed directly by one of these starts a number, not a negation *)
Definition starts_number (s : str) : Prop :=
  exists c r, s = c :: r /\ (48 <= c <= 57 \/ c = 46).
Definition starts_inf_nan (s : str) : Prop :=
  lower E (firstn 3 s) = lit "inf" \/ lower E (firstn 3 s) = lit "nan".
Definition is_negation (a : ast) : Prop := match a with Neg _ | Not _ => True | _ => False end.

(** ** The grammar

    [G full n a s]: [s] is a text of the expression [a], as an operand of an operator that needs
    its operand to bind at least at level [n].  With [full] set this is the whole grammar; without
    it, three forms are left out: a negation (- or not) whose operand is itself a negation without
    brackets, brackets around an expression that is itself a negation, and a minus sign directly
    followed by a name that starts with the letters inf or nan. *)
Inductive G (full : bool) : nat -> ast -> str -> Prop :=
| g_lit n l s : literal_text l s -> G full n (Lit l) s
| g_prop n p : property_name p -> G full n (Prop_ p) p
| g_paren n a w1 s w2 : ws w1 -> ws w2 -> G full 1 a s -> (full = false -> ~ is_negation a) ->
    G full n a (lit "(" ++ w1 ++ s ++ w2 ++ lit ")")
| g_neg n a w s : (n <= unary_level)%nat -> ws w -> G full (if full then unary_level else primary_level) a s ->
    ~ starts_number (w ++ s) -> (full = false -> ~ starts_inf_nan (w ++ s)) ->
    G full n (Neg a) (lit "-" ++ w ++ s)
| g_not n a w s : (n <= unary_level)%nat -> ws1 w -> G full (if full then unary_level else primary_level) a s ->
    G full n (Not a) (lit "not" ++ w ++ s)
| g_bin n o a b s1 w1 w2 s2 : (n <= level o)%nat -> ws1 w1 -> ws1 w2 ->
    G full (level o) a s1 -> G full (S (level o)) b s2 ->
    G full n (Bin o a b) (s1 ++ w1 ++ oname o ++ w2 ++ s2)
| g_member n a p s w1 w2 : (n <= primary_level)%nat -> ws w1 -> ws w2 ->
    G full primary_level a s -> property_name p ->
    G full n (Member a p) (s ++ w1 ++ lit "/" ++ w2 ++ p)
| g_cast n k a t w1 w2 s w3 w4 q w5 : ws w1 -> ws w2 -> ws w3 -> ws w4 -> ws w5 ->
    G full 1 a s -> quoted q t ->
    G full n (if k : bool then Cast a t else IsOf a t)
      ((if k then lit "cast" else lit "isof") ++ w1 ++ lit "(" ++ w2 ++ s ++ w3 ++ lit "," ++ w4
       ++ lit "'" ++ q ++ lit "'" ++ w5 ++ lit ")")
| g_cast1 n k t w1 w4 q w5 : ws w1 -> ws w4 -> ws w5 -> quoted q t ->
    G full n (if k : bool then Cast1 t else IsOf1 t)
      ((if k then lit "cast" else lit "isof") ++ w1 ++ lit "(" ++ w4
       ++ lit "'" ++ q ++ lit "'" ++ w5 ++ lit ")")
| g_call n m w s args : ws w -> method_name m -> Gargs full args s ->
    G full n (Call m args) (m ++ w ++ lit "(" ++ s ++ lit ")")
with Gargs (full : bool) : list ast -> str -> Prop :=
| ga_one a w1 s w2 : ws w1 -> ws w2 -> G full 1 a s -> Gargs full [a] (w1 ++ s ++ w2)
| ga_more a w1 s w2 l s' : ws w1 -> ws w2 -> G full 1 a s -> Gargs full l s' ->
    Gargs full (a :: l) (w1 ++ s ++ w2 ++ lit "," ++ s').

(** $orderby: expressions with an optional direction, true for ascending, the keyword in any case *)
Inductive direction_text : bool -> str -> Prop :=
| dt_none : direction_text true []
| dt_word (d : bool) w k : ws1 w -> map ascii_lower k = (if d then lit "asc" else lit "desc") ->
    direction_text d (w ++ k).
Inductive orderby_text : list (ast * bool) -> str -> Prop :=
| ob_one a d w1 s t w2 : ws w1 -> ws w2 -> G false 1 a s -> direction_text d t ->
    orderby_text [(a, d)] (w1 ++ s ++ t ++ w2)
| ob_more a d w1 s t w2 l s' : ws w1 -> ws w2 -> G false 1 a s -> direction_text d t -> orderby_text l s' ->
    orderby_text ((a, d) :: l) (w1 ++ s ++ t ++ w2 ++ lit "," ++ s').
End Grammar.

(** ** Expressions whose text is meant to be read back *)
(** literals with a text of their own: the integers are in range, the bytes are bytes, the Guid has
    32 digits.  The empty binary value, the floating point and decimal numbers and the date and time
    values are left out. *)
Definition literal_ok (l : lit_) : Prop :=
  match l with
  | LNull | LBool _ | LStr _ => True
  | LInt32 z => -2147483648 <= z <= 2147483647
  | LInt64 z => -9223372036854775808 <= z <= 9223372036854775807
  | LBin b => b <> [] /\ forall x, In x b -> 0 <= x <= 255
  | LGuid h => length h = 32%nat /\ forall x, In x h -> 48 <= x <= 57 \/ 97 <= x <= 102
  | LBinText | LNum _ _ | LTime _ _ => False
  end.
(** [printable]: names can be written, there are no negations of negations, the right operand of a
    binary operator is not a binary expression of the same precedence, no member is taken of a
    negation, and a minus sign is not followed by a number without sign, or by a name that starts
    with the letters inf or nan *)
Section Printable.
Variable E : env.
Fixpoint minus_ok (a : ast) : Prop :=
  match a with
  | Lit (LInt32 z) | Lit (LInt64 z) => z < 0
  | Prop_ n => ~ starts_inf_nan E n
  | Member a _ => minus_ok a
  | _ => True
  end.
Fixpoint printable (a : ast) : Prop :=
  match a with
  | Lit l => literal_ok l
  | Prop_ n => property_name E n
  | Neg a => printable a /\ ~ is_negation a /\ minus_ok a
  | Not a => printable a /\ ~ is_negation a
  | Bin o a b => printable a /\ printable b /\
      match b with Bin o' _ _ => level o' <> level o | _ => True end
  | Member a n => printable a /\ ~ is_negation a /\ property_name E n
  | Cast a _ | IsOf a _ => printable a
  | Cast1 _ | IsOf1 _ => False
  | Call m args => method_name m /\ args <> [] /\
      (fix all (l : list ast) : Prop := match l with [] => True | a :: r => printable a /\ all r end) args
  end.
End Printable.
