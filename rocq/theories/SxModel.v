(* SQL expression formatting: pyslet/odata2/sqlds.py 55-79 (operator
   precedence table), 94-216 (parameter styles), 1487-2000 (sql_expression
   and the methods it dispatches to) and the SQLite overrides 5571-5648.

   Text is Coq's [string]; V is the type of the literals' values and P the
   type of the objects passed to the database (prepare_sql_value, 5107-5176,
   is the parameter [prep]; None stands for NotImplementedError).  The
   entity type's properties and the mangled names are the parameter [field],
   from a path of property names to the quoted table and column, or the
   exception; add_join's effect on the FROM clause is not modelled.  A
   navigation property used alone makes the real function return None, and
   the caller's join or concatenation then raises TypeError: it is an
   exception here. *)
From Coq Require Import List Bool Arith String Ascii DecimalString.
Import ListNotations.
Local Open Scope string_scope.

(* the exceptions *)
Inductive sx_exn := XNotImpl | XEval | XType | XIndex | XKey.
Inductive sx_res (A : Type) := SOk (a : A) | SErr (e : sx_exn).
Arguments SOk {A} _.
Arguments SErr {A} _.

(* sqlds.py 55-71: the operators the precedence table knows *)
Inductive sop :=
| OComma | OOr | OAnd | ONot | OEq | ONe | OLt | OGt | OLe | OGe | OLike | OAdd | OSub | OMul | ODiv.
(* sqlds.py 55-71: SQLOperatorPrecedence *)
Definition prec (o : sop) : nat :=
  match o with
  | OComma => 0 | OOr => 1 | OAnd => 2 | ONot => 3
  | OEq | ONe | OLt | OGt | OLe | OGe | OLike => 4
  | OAdd | OSub => 5
  | OMul | ODiv => 6
  end.
(* sqlds.py 55-71: the keys of the table *)
Definition optext (o : sop) : string :=
  match o with
  | OComma => "," | OOr => "OR" | OAnd => "AND" | ONot => "NOT" | OEq => "=" | ONe => "<>" | OLt => "<"
  | OGt => ">" | OLe => "<=" | OGe => ">=" | OLike => "LIKE" | OAdd => "+" | OSub => "-" | OMul => "*"
  | ODiv => "/"
  end.

(* core.py 165-260: the binary operators and the methods of $filter *)
Inductive bop :=
| BMember | BCast | BMul | BDiv | BMod | BAdd | BSub | BLt | BGt | BLe | BGe | BIsof | BEq | BNe | BAnd | BOr.
Inductive meth :=
| MEndswith | MIndexof | MReplace | MStartswith | MTolower | MToupper | MTrim | MSubstring | MSubstringof
| MConcat | MLength | MYear | MMonth | MDay | MHour | MMinute | MSecond | MRound | MFloor | MCeiling.

(* core.py 375-1000: expression trees; a unary expression's operator does
   not matter here *)
Inductive ex (V : Type) :=
| ELit (v : V)
| EProp (n : string)
| EUn (a : ex V)
| EBin (o : bop) (a b : ex V)
| ECall (m : meth) (args : list (ex V)).
Arguments ELit {V} _.
Arguments EProp {V} _.
Arguments EUn {V} _.
Arguments EBin {V} _ _ _.
Arguments ECall {V} _ _.

(* DB API paramstyle: sqlds.py 138-216, selected at 4163-4178 *)
Inductive style := SQmark | SFormat | SNumeric | SNamed | SPyformat.

(* "%i" % n for n >= 0 *)
Definition dec (n : nat) : string := NilEmpty.string_of_uint (Nat.to_uint n).

Section Model.
Context {V P : Type}.
Variable st : style.                                (* container.ParamsClass *)
Variable sqlite : bool.                             (* SQLiteEntityCollectionBase or SQLCollectionBase *)
Variable prep : V -> option P.                      (* prepare_sql_value *)
Variable field : list string -> sx_res (string * string).  (* table and column, before quoting *)

(* The params attribute: a list, or a dict in the order of insertion; the
   names are kept for both *)
Definition pstate := list (string * P).

(* sqlds.py 138-216: add_param of the five classes *)
Definition add_param (v : P) (ps : pstate) : string * pstate :=
  match st with
  | SQmark => ("?", app ps [("", v)])
  | SFormat => ("%s", app ps [("", v)])
  | SNumeric => let ps' := app ps [("", v)] in (":" ++ dec (List.length ps'), ps')
  | SNamed => let name := "p" ++ dec (List.length ps) in (":" ++ name, app ps [(name, v)])
  | SPyformat => let name := "p" ++ dec (List.length ps) in ("%(" ++ name ++ ")s", app ps [(name, v)])
  end.

(* str.replace("%", "%%") *)
Fixpoint double_pct (s : string) : string :=
  match s with
  | EmptyString => EmptyString
  | String c s' => if Ascii.eqb c "%" then String c (String c (double_pct s')) else String c (double_pct s')
  end.
(* sqlds.py 119-135, 168-171, 213-216: escape_literal *)
Definition escape_literal (s : string) : string :=
  match st with SFormat | SPyformat => double_pct s | _ => s end.

(* sqlds.py 4961-4967: quote_identifier; the double quotes are removed *)
Fixpoint strip_quote (s : string) : string :=
  match s with
  | EmptyString => EmptyString
  | String c s' => if Ascii.eqb c """" then strip_quote s' else String c (strip_quote s')
  end.
Definition quote_identifier (s : string) : string := """" ++ strip_quote s ++ """".

(* A method's effect: the text it returns and the params object it leaves *)
Definition M (A : Type) := pstate -> sx_res (A * pstate).
Definition ret {A} (a : A) : M A := fun ps => SOk (a, ps).
Definition fail {A} (e : sx_exn) : M A := fun _ => SErr e.
Definition bind {A B} (m : M A) (k : A -> M B) : M B :=
  fun ps => match m ps with SOk (a, ps') => k a ps' | SErr e => SErr e end.
Notation "'let?' x := m 'in' k" := (bind m (fun x => k)) (at level 200, x pattern, right associativity).

(* sqlds.py 1555-1582: sql_bracket *)
Definition sql_bracket (query : string) (context operator : sop) : string :=
  if Nat.ltb (prec operator) (prec context) then "(" ++ query ++ ")" else query.

(* sqlds.py 1644-1663: sql_expression_generic_binary, on the conversions of
   the two operands *)
Definition generic_binary (l r : sop -> M string) (context operator : sop) : M string :=
  let? a := l operator in
  let? b := r operator in
  ret (sql_bracket (a ++ " " ++ optext operator ++ " " ++ b) context operator).

(* sqlds.py 1870-1876: sql_expression_concat *)
Definition sql_concat (l r : sop -> M string) (context : sop) : M string :=
  let? a := l OMul in
  let? b := r OMul in
  ret (sql_bracket (a ++ " || " ++ b) context OMul).

(* sqlds.py 1760-1762 with 1530-1532: the unparameterized literal '%' *)
Definition percent (_ : sop) : M string := ret (escape_literal "'%'").

(* sqlds.py 1755-1771, 1787-1803, 1840-1868: the end of endswith, startswith
   and substringof, on the conversions of the value and of the pattern *)
Definition sql_like (l pat : sop -> M string) (context : sop) : M string :=
  let? a := l OLike in
  let? b := pat OLike in
  ret (sql_bracket (a ++ " LIKE " ++ b) context OLike).

(* expression.operands[i] *)
Definition operand (fs : list (sop -> M string)) (i : nat) : sop -> M string :=
  fun context => match nth_error fs i with Some f => f context | None => fail XIndex end.

(* NAME( op[0] ) *)
Definition wrap1 (pre post : string) (fs : list (sop -> M string)) : M string :=
  let? a := operand fs 0 OComma in ret (pre ++ a ++ post).

(* sqlds.py 1684-1956 and 5571-5648: the methods of SQLCallExpressionMethod
   (1959-1980) and the overrides of SQLite; on the conversions of the operands *)
Definition call_method (m : meth) (fs : list (sop -> M string)) (context : sop) : M string :=
  match m with
  | MEndswith => sql_like (operand fs 0) (sql_concat percent (operand fs 1)) context
  | MIndexof =>
      let? a := operand fs 0 OComma in
      let? b := operand fs 1 OComma in
      ret ("POSITION(" ++ a ++ " IN " ++ b ++ ")")
  | MReplace => fail XNotImpl
  | MStartswith => sql_like (operand fs 0) (sql_concat (operand fs 1) percent) context
  | MTolower => wrap1 (if sqlite then "lower(" else "LOWER(") ")" fs
  | MToupper => wrap1 (if sqlite then "upper(" else "UPPER(") ")" fs
  | MTrim => wrap1 "TRIM(" ")" fs
  | MSubstring =>                       (* len(expression.operands > 2): TypeError, 1835 *)
      let? a := operand fs 0 OComma in
      let? b := operand fs 1 OComma in
      fail XType
  | MSubstringof =>
      sql_like (operand fs 1) (sql_concat percent (sql_concat (operand fs 0) percent)) context
  | MConcat => sql_concat (operand fs 0) (operand fs 1) context
  | MLength => wrap1 (if sqlite then "length(" else "CHAR_LENGTH(") ")" fs
  | MYear => if sqlite then wrap1 "CAST(strftime('%Y'," ") AS INTEGER)" fs else wrap1 "EXTRACT(YEAR FROM " ")" fs
  | MMonth => if sqlite then wrap1 "CAST(strftime('%m'," ") AS INTEGER)" fs else wrap1 "EXTRACT(MONTH FROM " ")" fs
  | MDay => if sqlite then wrap1 "CAST(strftime('%d'," ") AS INTEGER)" fs else wrap1 "EXTRACT(DAY FROM " ")" fs
  | MHour => if sqlite then wrap1 "CAST(strftime('%H'," ") AS INTEGER)" fs else wrap1 "EXTRACT(HOUR FROM " ")" fs
  | MMinute => if sqlite then wrap1 "CAST(strftime('%M'," ") AS INTEGER)" fs else wrap1 "EXTRACT(MINUTE FROM " ")" fs
  | MSecond => if sqlite then wrap1 "CAST(strftime('%S'," ") AS INTEGER)" fs else wrap1 "EXTRACT(SECOND FROM " ")" fs
  | MRound | MFloor | MCeiling => fail XNotImpl
  end.

(* sqlds.py 1626-1636: _calculate_member_field_name *)
Fixpoint member_path (e : ex V) : sx_res (list string) :=
  match e with
  | EProp n => SOk [n]
  | EBin BMember a b =>
      match member_path a with
      | SErr x => SErr x
      | SOk l => match member_path b with SErr x => SErr x | SOk r => SOk (app l r) end
      end
  | _ => SErr XEval
  end.

(* "%s.%s" % (table_name, field_name) *)
Definition column (path : list string) : M string :=
  match field path with
  | SOk (t, c) => ret (quote_identifier t ++ "." ++ quote_identifier c)
  | SErr x => fail x
  end.

(* sqlds.py 1584-1624, 1638-1753 with 1982-1999: the methods of
   SQLBinaryExpressionMethod; cast, mod and isof have no implementation *)
Definition binary_method (o : bop) (path : sx_res (list string)) (l r : sop -> M string) (context : sop) : M string :=
  match o with
  | BMember => match path with SOk p => column p | SErr x => fail x end
  | BCast | BMod | BIsof => fail XNotImpl
  | BMul => generic_binary l r context OMul
  | BDiv => generic_binary l r context ODiv
  | BAdd => generic_binary l r context OAdd
  | BSub => generic_binary l r context OSub
  | BLt => generic_binary l r context OLt
  | BGt => generic_binary l r context OGt
  | BLe => generic_binary l r context OLe
  | BGe => generic_binary l r context OGe
  | BEq => generic_binary l r context OEq
  | BNe => generic_binary l r context ONe
  | BAnd => generic_binary l r context OAnd
  | BOr => generic_binary l r context OOr
  end.

(* sqlds.py 1487-1553: sql_expression *)
Fixpoint sql_expression (e : ex V) (context : sop) {struct e} : M string :=
  match e with
  | EUn _ => fail XNotImpl
  | EBin o a b => binary_method o (member_path e) (sql_expression a) (sql_expression b) context
  | ELit v => match prep v with Some p => fun ps => SOk (add_param p ps) | None => fail XNotImpl end
  | EProp n => column [n]
  | ECall m args => call_method m (map sql_expression args) context
  end.

(* sqlds.py 1123: the filter in a WHERE clause, with a new params object *)
Definition filter_text (e : ex V) : sx_res (string * pstate) :=
  match sql_expression e OAnd [] with
  | SOk (q, ps) => SOk ("(" ++ q ++ ")", ps)
  | SErr x => SErr x
  end.
End Model.
