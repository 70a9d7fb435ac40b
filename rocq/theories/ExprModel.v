(** Model of the OData common-expression parser and formatter,
    pyslet/odata2/core.py 219-570, 899-990, 1319-1570, 1604-1860 and the literal parsers it calls,
    pyslet/odata2/csdl.py 637-652, 771-815, 1120-1131, 1168-1171, 1819-1880.

    A parser is represented by the text that remains to be read (setpos(savepos) is going back to
    an earlier remaining text); every ValueError, ParserError included, is [Err ValueError].
    A loop that runs out of fuel gives [Err Timeout]; ExprTotal.v proves that this never happens.
    The recursion limit of the Python interpreter is not modelled. *)
From Verif Require Import Py.

(** ** Library functions and tables that the code uses, kept abstract

    [idstart], [idchar]: the character classes built at core.py 1648-1656 from the Unicode
    categories L, Nl and L, Nl, Nd, Mn, Mc, Pc, Cf.  [lower]: str.lower.  [tparse k s]: how many
    characters of [s] the literal parser for a date or time takes, None when it raises ValueError
    (csdl.py 671-728, 817-840; core.py 1742-1749).  [num_ok]: whether
    set_from_numeric_literal accepts the literal for Double, Single or Decimal (csdl.py 1545, 1640,
    1701).  [fmt_num], [fmt_time]: the text of such values. *)
Record numeric := mkNum {
  n_sign : bool; n_l : str; n_r : option str; n_esign : bool; n_e : option str }.
Inductive fkind := FDouble | FSingle | FDecimal.
Inductive tkind := TDateTime | TDateTimeOffset | TTime.
Record env := mkEnv {
  idstart : Z -> bool; idchar : Z -> bool; lower : str -> str;
  tparse : tkind -> str -> option nat;
  num_ok : fkind -> numeric -> bool;
  fmt_num : fkind -> numeric -> str;
  fmt_time : tkind -> str -> str }.

(** a literal value, with its EDM type.  A Guid is its 32 hexadecimal digits in lower case.
    [LBinText]: parse_binary_literal returns the text string '' for X'' (csdl.py 643-644).
    [LNum], [LTime]: the value is represented by the literal it came from. *)
Inductive lit_ :=
| LNull | LBool (b : bool) | LInt32 (z : Z) | LInt64 (z : Z) | LStr (s : str)
| LBin (b : list Z) | LBinText | LGuid (h : str)
| LNum (k : fkind) (n : numeric) | LTime (k : tkind) (t : str).

(** core.py 245-306 Operator: the unary operators that UnaryExpression is used with ... *)
Inductive unop := ONeg | ONot.
(** ... and those that BinaryExpression is used with.  [BNot]: core.py 1411-1414 accepts the name
    of the operator not, which is not in Operator.IsSpecial, between two operands. *)
Inductive binop :=
| BMember | BCast | BMul | BDiv | BMod | BAdd | BSub | BLt | BGt | BLe | BGe | BIsOf
| BEq | BNe | BAnd | BOr | BNot.

(** core.py 375-386, 430, 479, 899, 935, 966: CommonExpression and its subclasses.  A method is
    its name.  An operand can be Python's None, see 1452. *)
Inductive expr :=
| XLit (l : lit_)
| XProp (name : str)
| XUn (o : unop) (args : list (option expr))
| XBin (o : binop) (args : list (option expr))
| XCall (m : str) (args : list (option expr)).

(** core.py 233-243 OperatorCategory and 309-329 Operator.Category *)
Definition prec_un (o : unop) : Z := match o with ONeg => 8 | ONot => 8 end.
Definition prec_bin (o : binop) : Z :=
  match o with
  | BMember => 9
  | BCast => 8
  | BMul | BDiv | BMod => 7
  | BAdd | BSub => 6
  | BLt | BGt | BLe | BGe | BIsOf => 5
  | BEq | BNe => 4
  | BAnd => 3
  | BOr => 2
  | BNot => 8
  end.
(** core.py 392-396 sortkey, None for an expression with no operator *)
Definition sortkey (e : expr) : option Z :=
  match e with
  | XLit _ | XProp _ => None
  | XUn o _ => Some (prec_un o)
  | XBin o _ => Some (prec_bin o)
  | XCall _ _ => Some 9
  end.
(** py2.py 381-390 [__lt__] between expressions that have an operator *)
Definition key (e : expr) : Z := match sortkey e with Some k => k | None => 0 end.

(** core.py 258-280 Operator.decode; xsdatatypes.py 598-600, 605-606: encode is made before the
    aliases are added *)
Definition op_name (o : binop) : str :=
  match o with
  | BMember => lit "member" | BCast => lit "cast" | BMul => lit "mul" | BDiv => lit "div"
  | BMod => lit "mod" | BAdd => lit "add" | BSub => lit "sub" | BLt => lit "lt" | BGt => lit "gt"
  | BLe => lit "le" | BGe => lit "ge" | BIsOf => lit "isof" | BEq => lit "eq" | BNe => lit "ne"
  | BAnd => lit "and" | BOr => lit "or" | BNot => lit "not"
  end.
(** core.py 1409-1413: Operator.from_str(name), with the aliases of 282-294, followed by the
    rejection of Operator.IsSpecial (331-337).  Enumeration.from_str strips white space, which an
    identifier does not contain. *)
Definition op_table : list (str * binop) :=
  [ (lit "mul", BMul); (lit "div", BDiv); (lit "mod", BMod); (lit "add", BAdd); (lit "sub", BSub);
    (lit "lt", BLt); (lit "gt", BGt); (lit "le", BLe); (lit "ge", BGe); (lit "eq", BEq);
    (lit "ne", BNe); (lit "and", BAnd); (lit "or", BOr); (lit "not", BNot);
    (lit "boolNot", BNot); (lit "bool_not", BNot); (lit "boolAnd", BAnd); (lit "bool_and", BAnd);
    (lit "boolOr", BOr); (lit "bool_or", BOr) ].
Fixpoint assoc {A} (k : str) (l : list (str * A)) : option A :=
  match l with
  | nil => None
  | (k', v) :: r => if str_eqb k k' then Some v else assoc k r
  end.
Definition op_from_str (name : str) : option binop := assoc name op_table.
(** core.py 351-372 Method.decode *)
Definition methods : list str :=
  [ lit "endswith"; lit "indexof"; lit "replace"; lit "startswith"; lit "tolower"; lit "toupper";
    lit "trim"; lit "substring"; lit "substringof"; lit "concat"; lit "length"; lit "year";
    lit "month"; lit "day"; lit "hour"; lit "minute"; lit "second"; lit "round"; lit "floor";
    lit "ceiling" ].
Definition is_method (name : str) : bool := existsb (str_eqb name) methods.

(** ** Reading characters *)
(** unicode5.py parse(s): the rest after the prefix [p] *)
Fixpoint parse (p s : str) : option str :=
  match p, s with
  | nil, _ => Some s
  | c :: p', d :: s' => if c =? d then parse p' s' else None
  | _ :: _, nil => None
  end.
Definition is_ws (c : Z) : bool := (c =? 32) || (c =? 9).
(** core.py 1505-1519 parse_wsp: the rest; whether anything was read is a comparison of lengths *)
Fixpoint wsp (s : str) : str :=
  match s with c :: r => if is_ws c then wsp r else s | nil => nil end.
Definition has_wsp (s : str) : bool := match s with c :: _ => is_ws c | nil => false end.
(** unicode5.py 1178-1192 parse_one *)
Definition parse_one (cs s : str) : option (Z * str) :=
  match s with c :: r => if zin c cs then Some (c, r) else None | nil => None end.
(** unicode5.py parse_insensitive *)
Definition parse_insens (E : env) (l s : str) : option str :=
  if str_eqb (lower E (firstn (length l) s)) l then Some (skipn (length l) s) else None.
Definition is_digit (c : Z) : bool := (48 <=? c) && (c <=? 57).
Definition is_hex (c : Z) : bool :=
  is_digit c || ((65 <=? c) && (c <=? 70)) || ((97 <=? c) && (c <=? 102)).
(** unicode5.py 1268-1298 parse_digits(0): the digits and the rest *)
Fixpoint span (p : Z -> bool) (s : str) : str * str :=
  match s with
  | c :: r => if p c then let (a, b) := span p r in (c :: a, b) else (nil, s)
  | nil => (nil, nil)
  end.
Definition opt_or {A B} (o : option A) (f : A -> res B) : res B :=
  match o with Some a => f a | None => Err ValueError end.

(** core.py 1604-1672 parse_simple_identifier: the name and the rest; None leaves the position
    where it was.  [fuel]: one unit for each name component. *)
Fixpoint ident_loop (E : env) (fuel : nat) (s : str) : option (str * str) :=
  match fuel with
  | O => None
  | S f =>
    match s with
    | nil => None
    | c :: r =>
      if idstart E c then
        let (a, r') := span (idchar E) r in
        match parse (lit ".") r' with
        | None => Some (c :: a, r')
        | Some r2 =>
          match ident_loop E f r2 with
          | None => None
          | Some (n, r3) => Some (c :: a ++ lit "." ++ n, r3)
          end
        end
      else None
    end
  end.
Definition ident (E : env) (s : str) : option (str * str) := ident_loop E (length s) s.

(** core.py 1674-1697 parse_string_uri_literal, after the opening quote: [cur] is the part of the
    current piece already read, in reverse *)
Fixpoint squote (s : str) (acc : str) : res (str * str) :=
  match s with
  | nil => Err ValueError
  | 39 :: 39 :: r => squote r (39 :: acc)
  | 39 :: r => Ok (rev acc, r)
  | c :: r => squote r (c :: acc)
  end.

(** csdl.py 771-815 parse_numeric_literal *)
Definition parse_numeric (E : env) (s : str) : option (numeric * str) :=
  let (sign, s1) := match parse (lit "-") s with Some r => (true, r) | None => (false, s) end in
  match parse_insens E (lit "inf") s1 with
  | Some r => Some (mkNum sign (lit "inf") None false None, r)
  | None =>
    match parse_insens E (lit "nan") s1 with
    | Some r => Some (mkNum sign (lit "nan") None false None, r)
    | None =>
      let (ld, s2) := span is_digit s1 in
      let (rd, s3) := match parse (lit ".") s2 with
                      | Some r => let (d, r') := span is_digit r in (Some d, r')
                      | None => (None, s2)
                      end in
      if match ld, rd with nil, None => true | nil, Some nil => true | _, _ => false end then None
      else
        match parse_one (lit "eE") s3 with
        | None => Some (mkNum sign ld rd false None, s3)
        | Some (_, s4) =>
          let (es, s5) := match parse (lit "-") s4 with Some r => (true, r) | None => (false, s4) end in
          let (ed, s6) := span is_digit s5 in
          Some (mkNum sign ld rd es (Some ed), s6)
        end
    end
  end.
Definition dec_value (s : str) : Z := fold_left (fun a c => a * 10 + (c - 48)) s 0.
Definition num_value (n : numeric) : Z :=
  if n_sign n then - dec_value (n_l n) else dec_value (n_l n).
(** csdl.py 1819-1839 and 1854-1875 Int32Value, Int64Value.set_from_numeric_literal.
    ldigits.isalpha() holds of inf and nan only. *)
Definition int_literal (maxlen : nat) (lo hi : Z) (n : numeric) : res Z :=
  if match n_l n with nil => true | _ => false end
     || (maxlen <? length (n_l n))%nat
     || negb (forallb is_digit (n_l n))
     || match n_r n with Some _ => true | None => false end
     || match n_e n with Some _ => true | None => false end
  then Err ValueError
  else let v := num_value n in
       if (v <? lo) || (hi <? v) then Err ValueError else Ok v.
Definition int32_literal := int_literal 10 (-2147483648) 2147483647.
Definition int64_literal := int_literal 19 (-9223372036854775808) 9223372036854775807.

(** int(h, 16) of one hexadecimal digit, and of a pair (csdl.py 648-652) *)
Definition hexv (c : Z) : Z := if c <=? 57 then c - 48 else if c <=? 70 then c - 55 else c - 87.
Fixpoint hex_bytes (h : str) : option (list Z) :=
  match h with
  | nil => Some nil
  | a :: b :: r => match hex_bytes r with Some l => Some (16 * hexv a + hexv b :: l) | None => None end
  | [_] => None
  end.
(** unicode5.py 1358-1386 parse_hex_digits(n, n) *)
Definition hexn (n : nat) (s : str) : option (str * str) :=
  if (length (firstn n s) =? n)%nat && forallb is_hex (firstn n s)
  then Some (firstn n s, skipn n s) else None.
Definition lowhex (c : Z) : Z := if (65 <=? c) && (c <=? 70) then c + 32 else c.

(** core.py 1798-1830, after the opening quote *)
Definition parse_guid (s : str) : res (str * str) :=
  opt_or (hexn 8 s) (fun '(a, s) =>
  opt_or (parse (lit "-") s) (fun s =>
  opt_or (hexn 4 s) (fun '(b, s) =>
  opt_or (parse (lit "-") s) (fun s =>
  opt_or (hexn 4 s) (fun '(c, s) =>
  opt_or (parse (lit "-") s) (fun s =>
  opt_or (hexn 4 s) (fun '(d, s) =>
  let! (h, s) :=
    match parse (lit "-") s with
    | Some s => opt_or (hexn 12 s) (fun '(e, s) => Ok (a ++ b ++ c ++ d ++ e, s))
    | None => opt_or (hexn 8 s) (fun '(e, s) => Ok (a ++ b ++ c ++ lit "FFFF" ++ d ++ e, s))
    end in
  opt_or (parse (lit "'") s) (fun s => Ok (map lowhex h, s))))))))).

(** core.py 1742-1773: the three date and time literals *)
Definition parse_timelit (E : env) (k : tkind) (s : str) : res (option lit_ * str) :=
  opt_or (parse (lit "'") s) (fun s =>
  opt_or (tparse E k s) (fun n =>
  opt_or (parse (lit "'") (skipn n s)) (fun r => Ok (Some (LTime k (firstn n s)), r)))).

Definition nan_ : numeric := mkNum false (lit "nan") None false None.
Definition inf_ : numeric := mkNum false (lit "inf") None false None.
(** core.py 1700-1835 parse_uri_literal *)
Definition parse_lit (E : env) (s : str) : res (option lit_ * str) :=
  match ident E s with
  | None =>
    match s with
    | 39 :: r => let! (v, r) := squote r nil in Ok (Some (LStr v), r)
    | c :: _ =>
      if zin c (lit "-.0123456789") then
        match parse_numeric E s with
        | None => Ok (None, s)
        | Some (n, r) =>
          match parse_one (lit "Dd") r with
          | Some (_, r) => if num_ok E FDouble n then Ok (Some (LNum FDouble n), r) else Err ValueError
          | None =>
          match parse_one (lit "Ff") r with
          | Some (_, r) => if num_ok E FSingle n then Ok (Some (LNum FSingle n), r) else Err ValueError
          | None =>
          match parse_one (lit "Mm") r with
          | Some (_, r) => if num_ok E FDecimal n then Ok (Some (LNum FDecimal n), r) else Err ValueError
          | None =>
          match parse_one (lit "Ll") r with
          | Some (_, r) => let! v := int64_literal n in Ok (Some (LInt64 v), r)
          | None => let! v := int32_literal n in Ok (Some (LInt32 v), r)
          end end end end
        end
      else Ok (None, s)
    | nil => Ok (None, s)
    end
  | Some (name_case, r) =>
    let name := lower E name_case in
    if str_eqb name (lit "null") then Ok (Some LNull, r)
    else if str_eqb name (lit "true") then Ok (Some (LBool true), r)
    else if str_eqb name (lit "false") then Ok (Some (LBool false), r)
    else if str_eqb name (lit "datetimeoffset") then parse_timelit E TDateTimeOffset r
    else if str_eqb name (lit "datetime") then parse_timelit E TDateTime r
    else if str_eqb name (lit "time") then parse_timelit E TTime r
    else if str_eqb name_case (lit "X") || str_eqb name (lit "binary") then
      opt_or (parse (lit "'") r) (fun r =>
      let (h, r) := span is_hex r in
      let! v := match h with
                | nil => Ok LBinText
                | _ => opt_or (hex_bytes h) (fun b => Ok (LBin b))
                end in
      opt_or (parse (lit "'") r) (fun r => Ok (Some v, r)))
    else if str_eqb name (lit "nand") then Ok (Some (LNum FDouble nan_), r)
    else if str_eqb name (lit "nanf") then Ok (Some (LNum FSingle nan_), r)
    else if str_eqb name (lit "infd") then Ok (Some (LNum FDouble inf_), r)
    else if str_eqb name (lit "inff") then Ok (Some (LNum FSingle inf_), r)
    else if str_eqb name (lit "guid") then
      opt_or (parse (lit "'") r) (fun r => let! (h, r) := parse_guid r in Ok (Some (LGuid h), r))
    else Ok (None, s)
  end.

(** ** The expression parser *)
Definition add_operand (e : expr) (o : option expr) : expr :=
  match e with
  | XUn u l => XUn u (l ++ [o])
  | XBin b l => XBin b (l ++ [o])
  | XCall m l => XCall m (l ++ [o])
  | _ => e
  end.
(** core.py 1434-1456: who binds more tightly.  The stack is left_op followed by op_stack, top
    first; left_op is None exactly when op_stack is empty and the list is. *)
Fixpoint shift (st : list expr) (operand : option expr) (right_op : expr) : list expr :=
  match st with
  | nil => [match operand with Some _ => add_operand right_op operand | None => right_op end]
  | left_op :: st' =>
    if key left_op <? key right_op then
      match operand with Some _ => add_operand right_op operand | None => right_op end :: st
    else shift st' (Some (add_operand left_op operand)) right_op
  end.
(** core.py 1420-1428: the end of the expression *)
Fixpoint unwind (st : list expr) (operand : expr) : expr :=
  match st with
  | nil => operand
  | left_op :: st' => unwind st' (add_operand left_op (Some operand))
  end.
Definition is_unary (e : expr) : bool := match e with XUn _ _ => true | _ => false end.
Definition is_str_lit (e : expr) : bool := match e with XLit (LStr _) => true | _ => false end.

(** core.py 1476-1503 parse_castlike; [rec] is parse_common_expression with no parameters *)
Definition castlike (rec : str -> res (option expr * str)) (o : binop) (s : str)
  : res (option expr * str) :=
  match parse (lit "(") (wsp s) with
  | None => Ok (None, wsp s)
  | Some s =>
    let! (p, s) := rec s in
    opt_or p (fun p1 =>
    let s := wsp s in
    match parse (lit ")") s with
    | Some s => if is_str_lit p1 then Ok (Some (XBin o [Some p1]), s) else Err ValueError
    | None =>
      opt_or (parse (lit ",") s) (fun s =>
      let! (p, s) := rec (wsp s) in
      opt_or p (fun p2 =>
      opt_or (parse (lit ")") (wsp s)) (fun s =>
      if is_str_lit p2 then Ok (Some (XBin o [Some p1; Some p2]), s) else Err ValueError)))
    end)
  end.
(** core.py 1462-1474, the loop of parse_method_call_expression *)
Fixpoint call_args (rec : str -> res (option expr * str)) (fuel : nat) (s : str) (acc : list (option expr))
  : res (list (option expr) * str) :=
  match fuel with
  | O => Err Timeout
  | S f =>
    let! (p, s) := rec (wsp s) in
    opt_or p (fun p =>
    let acc := acc ++ [Some p] in
    let s := wsp s in
    match parse (lit ",") s with
    | Some s => call_args rec f s acc
    | None => opt_or (parse (lit ")") s) (fun s => Ok (acc, s))
    end)
  end.

(** core.py 1340-1391: the operand, or the unary operator, at the start of an iteration; [None]
    when nothing was found.  [empty]: whether left_op is None. *)
Definition operand_at (E : env) (rec : str -> res (option expr * str)) (fuel : nat)
    (params : option (list (str * lit_))) (s : str) : res (option expr * str) :=
  let s := wsp s in
  let! (value, s) :=
    match params, parse (lit ":") s with
    | Some ps, Some r =>
      match ident E r with
      | Some (n, r) => opt_or (assoc n ps) (fun v => Ok (Some v, r))
      | None => Err ValueError
      end
    | _, _ => parse_lit E s
    end in
  match value with
  | Some v => Ok (Some (XLit v), s)
  | None =>
    match ident E s with
    | Some (name, r) =>
      if str_eqb name (lit "not") then
        if has_wsp r then Ok (Some (XUn ONot []), wsp r) else Err ValueError
      else if str_eqb name (lit "isof") then
        let! (e, r) := castlike rec BIsOf (wsp r) in opt_or e (fun e => Ok (Some e, r))
      else if str_eqb name (lit "cast") then
        let! (e, r) := castlike rec BCast (wsp r) in opt_or e (fun e => Ok (Some e, r))
      else
        let r := wsp r in
        match parse (lit "(") r with
        | Some r =>
          if is_method name then
            let! (args, r) := call_args rec fuel r [] in Ok (Some (XCall name args), r)
          else Err ValueError
        | None => Ok (Some (XProp name), r)
        end
    | None =>
      match parse (lit "(") s with
      | Some s =>
        let! (e, s) := rec s in
        opt_or e (fun e => opt_or (parse (lit ")") s) (fun s => Ok (Some e, s)))
      | None =>
        match parse (lit "-") s with
        | Some s => Ok (Some (XUn ONeg []), s)
        | None => Ok (None, s)
        end
      end
    end
  end.
(** core.py 1396-1417: the operator after an operand; None at the end of the expression *)
Definition operator_at (E : env) (s : str) : option (expr * str) :=
  match parse (lit "/") s with
  | Some r => Some (XBin BMember [], r)
  | None =>
    match ident E s with
    | Some (name, r) =>
      match op_from_str name with Some o => Some (XBin o [], r) | None => None end
    | None => None
    end
  end.
(** core.py 1321-1456 parse_common_expression, from the head of the loop *)
Fixpoint ce (E : env) (fuel : nat) (params : option (list (str * lit_))) (st : list expr) (s : str)
  : res (option expr * str) :=
  match fuel with
  | O => Err Timeout
  | S f =>
    let! (right_op, s) := operand_at E (ce E f None []) f params s in
    match right_op with
    | None => match st with nil => Ok (None, s) | _ => Err ValueError end
    | Some right_op =>
      if is_unary right_op then ce E f params (shift st None right_op) s
      else
        let s := wsp s in
        match operator_at E s with
        | Some (o, r) => ce E f params (shift st (Some right_op) o) r
        | None => Ok (Some (unwind st right_op), s)
        end
    end
  end.
(** core.py 404-409 CommonExpression.from_str *)
Definition from_str (E : env) (params : option (list (str * lit_))) (s : str) : res expr :=
  let! (e, r) := ce E (S (length s)) params [] s in
  opt_or e (fun e => match r with nil => Ok e | _ => Err ValueError end).

(** core.py 1544-1568 parse_orderby_option; true is ascending *)
Fixpoint orderby_loop (E : env) (fuel : nat) (s : str) (acc : list (expr * bool))
  : res (list (expr * bool)) :=
  match fuel with
  | O => Err Timeout
  | S f =>
    let! (e, s) := ce E (S (length s)) None [] (wsp s) in
    opt_or e (fun e =>
    let s := wsp s in
    let (dir, s) :=
      match parse_insens E (lit "asc") s with
      | Some r => (true, r)
      | None => match parse_insens E (lit "desc") s with Some r => (false, r) | None => (true, s) end
      end in
    let acc := acc ++ [(e, dir)] in
    let s := wsp s in
    match parse (lit ",") s with
    | Some s => orderby_loop E f s acc
    | None => match s with nil => Ok acc | _ => Err ValueError end
    end)
  end.
Definition orderby_from_str (E : env) (s : str) : res (list (expr * bool)) :=
  orderby_loop E (S (length s)) s [].

(** ** The formatter *)
(** decimal text of an integer, str(int) (Python library) *)
Fixpoint dec_digits (fuel : nat) (n : Z) (acc : str) : str :=
  match fuel with
  | O => acc
  | S f => let acc := (48 + n mod 10) :: acc in if n <? 10 then acc else dec_digits f (n / 10) acc
  end.
Definition str_of_int (z : Z) : str :=
  let n := Z.abs z in
  let d := dec_digits (S (Z.to_nat (Z.log2 n))) n nil in
  if z <? 0 then lit "-" ++ d else d.
(** '%02X' *)
Definition hexc (d : Z) : Z := if d <? 10 then 48 + d else 55 + d.
Definition hex2 (b : Z) : str := [hexc (b / 16); hexc (b mod 16)].
(** core.py 928-930: "''".join(result.split("'")) *)
Fixpoint dquote (s : str) : str :=
  match s with
  | nil => nil
  | 39 :: r => 39 :: 39 :: dquote r
  | c :: r => c :: dquote r
  end.
(** core.py 906-932 LiteralExpression.__unicode__, with csdl.py 1120-1131 (Binary), 1168-1171
    (Boolean), str(UUID) (Guid) *)
Definition fmt_lit (E : env) (l : lit_) : res str :=
  match l with
  | LNull => Ok (lit "null")
  | LBool b => Ok (if b then lit "true" else lit "false")
  | LInt32 z => Ok (str_of_int z)
  | LInt64 z => Ok (str_of_int z ++ lit "L")
  | LStr s => Ok (lit "'" ++ dquote s ++ lit "'")
  | LBin b => Ok (lit "X'" ++ flat_map hex2 b ++ lit "'")
  | LBinText => Err TypeError
  | LGuid h => Ok (lit "guid'" ++ slice 0 8 h ++ lit "-" ++ slice 8 12 h ++ lit "-" ++ slice 12 16 h
                   ++ lit "-" ++ slice 16 20 h ++ lit "-" ++ slice 20 32 h ++ lit "'")
  | LNum k n => Ok (fmt_num E k n ++ match k with FDouble => lit "D" | FSingle => lit "F" | FDecimal => lit "M" end)
  | LTime k t => Ok (match k with TDateTime => lit "datetime'" | TDateTimeOffset => lit "datetimeoffset'"
                     | TTime => lit "time'" end ++ fmt_time E k t ++ lit "'")
  end.
Definition weaker (e parent : expr) : bool :=
  match sortkey e with Some k => k <? key parent | None => false end.
Definition bracket (b : bool) (s : str) : str := if b then lit "(" ++ s ++ lit ")" else s.
Fixpoint join (sep : str) (l : list str) : str :=
  match l with
  | nil => nil
  | [a] => a
  | a :: r => a ++ sep ++ join sep r
  end.
(** core.py 439-450 UnaryExpression, 508-535 BinaryExpression, 984-987 CallExpression, 943
    PropertyExpression: __unicode__ *)
Fixpoint fmt (E : env) (e : expr) : res str :=
  match e with
  | XLit l => fmt_lit E l
  | XProp n => Ok n
  | XUn o args =>
    match args with
    | nil => Err IndexError
    | None :: _ => Err AttributeError
    | Some r :: _ =>
      let! t := fmt E r in
      Ok ((match o with ONeg => lit "-" | ONot => lit "not " end) ++ bracket (weaker r e) t)
    end
  | XBin o args =>
    match args with
    | nil => Err IndexError
    | [_] => Err IndexError
    | None :: _ :: _ => Err AttributeError
    | Some l :: b :: _ =>
      let! tl := fmt E l in
      match b with
      | None => Err AttributeError
      | Some r =>
        let! tr := fmt E r in
        let tl := bracket (weaker l e) tl in
        let tr := bracket (weaker r e) tr in
        Ok (match o with
            | BMember => tl ++ lit "/" ++ tr
            | BCast => lit "cast(" ++ tl ++ lit "," ++ tr ++ lit ")"
            | BIsOf => lit "isof(" ++ tl ++ lit "," ++ tr ++ lit ")"
            | _ => tl ++ lit " " ++ op_name o ++ lit " " ++ tr
            end)
      end
    end
  | XCall m args =>
    let! ts := (fix go (l : list (option expr)) : res (list str) :=
                  match l with
                  | nil => Ok nil
                  | None :: r => let! ts := go r in Ok (lit "None" :: ts)
                  | Some a :: r => let! t := fmt E a in let! ts := go r in Ok (t :: ts)
                  end) args in
    Ok (m ++ lit "(" ++ join (lit ",") ts ++ lit ")")
  end.
(** core.py 419-424 orderby_to_str *)
Fixpoint orderby_texts (E : env) (l : list (expr * bool)) : res (list str) :=
  match l with
  | nil => Ok nil
  | (e, d) :: r =>
    let! t := fmt E e in
    let! ts := orderby_texts E r in
    Ok ((t ++ lit " " ++ if d : bool then lit "asc" else lit "desc") :: ts)
  end.
Definition orderby_to_str (E : env) (l : list (expr * bool)) : res str :=
  let! ts := orderby_texts E l in Ok (join (lit ", ") ts).
