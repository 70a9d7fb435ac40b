(* What a parameterized SQL expression means: how a DB API driver puts the
   parameters in, how the result is divided into tokens, and how the tokens
   are read as a tree.  Nothing here refers to the formatter; the intended
   tree of an OData expression is [sql_of]. *)
From Coq Require Import List Bool Arith String Ascii DecimalString.
From Verif Require Import SxModel.
Import ListNotations.
Local Open Scope string_scope.

(* --- characters --- *)
Definition is_digit (c : ascii) : bool :=
  let n := nat_of_ascii c in Nat.leb 48 n && Nat.leb n 57.
Definition is_word (c : ascii) : bool :=
  let n := nat_of_ascii c in
  is_digit c || (Nat.leb 65 n && Nat.leb n 90) || (Nat.leb 97 n && Nat.leb n 122) || Nat.eqb n 95.
Definition snoc (s : string) (c : ascii) : string := s ++ String c "".
Fixpoint has (c : ascii) (s : string) : bool :=
  match s with "" => false | String d s' => Ascii.eqb c d || has c s' end.

Definition consO {A} (a : A) (o : option (list A)) : option (list A) := option_map (cons a) o.

(* --- the driver (PEP 249): find the placeholders --- *)
(* a placeholder: the next parameter, the parameter with this number, with
   this name *)
Inductive ref := RNext | RNum (digits : string) | RName (name : string).
Inductive sitem := IC (c : ascii) | IR (r : ref).
(* plain text; inside quotes; after ':' ; after '%' ; in '%(' ; after '%(name)' *)
Inductive zst := ZN | ZQ (q : ascii) | ZNum (acc : string) | ZName (acc : string)
| ZPct | ZPctName (acc : string) | ZPctEnd (name : string).

Definition is_quote (c : ascii) : bool := Ascii.eqb c """" || Ascii.eqb c "'".

Fixpoint scan (st : style) (z : zst) (s : string) : option (list sitem) :=
  match s with
  | "" =>
      match z with
      | ZN => Some []
      | ZNum acc => Some [IR (RNum acc)]
      | ZName acc => Some [IR (RName acc)]
      | _ => None
      end
  | String c s' =>
      let plain :=
        match st with
        | SQmark =>
            if Ascii.eqb c "?" then consO (IR RNext) (scan st ZN s')
            else consO (IC c) (scan st (if is_quote c then ZQ c else ZN) s')
        | SNumeric =>
            if Ascii.eqb c ":" then scan st (ZNum "") s'
            else consO (IC c) (scan st (if is_quote c then ZQ c else ZN) s')
        | SNamed =>
            if Ascii.eqb c ":" then scan st (ZName "") s'
            else consO (IC c) (scan st (if is_quote c then ZQ c else ZN) s')
        | SFormat | SPyformat =>   (* text % params: quotes mean nothing *)
            if Ascii.eqb c "%" then scan st ZPct s' else consO (IC c) (scan st ZN s')
        end in
      match z with
      | ZN => plain
      | ZQ q => consO (IC c) (scan st (if Ascii.eqb c q then ZN else ZQ q) s')
      | ZNum acc => if is_digit c then scan st (ZNum (snoc acc c)) s' else consO (IR (RNum acc)) plain
      | ZName acc => if is_word c then scan st (ZName (snoc acc c)) s' else consO (IR (RName acc)) plain
      | ZPct =>
          if Ascii.eqb c "%" then consO (IC "%") (scan st ZN s')
          else match st with
               | SFormat => if Ascii.eqb c "s" then consO (IR RNext) (scan st ZN s') else None
               | SPyformat => if Ascii.eqb c "(" then scan st (ZPctName "") s' else None
               | _ => None
               end
      | ZPctName acc => if Ascii.eqb c ")" then scan st (ZPctEnd acc) s' else scan st (ZPctName (snoc acc c)) s'
      | ZPctEnd name => if Ascii.eqb c "s" then consO (IR (RName name)) (scan st ZN s') else None
      end
  end.

Section Spec.
Context {V P : Type}.

(* --- the driver: put the values in --- *)
(* a statement with its values in place *)
Inductive item := Ch (c : ascii) | Va (p : P).

Fixpoint lookup (n : string) (ps : list (string * P)) : option P :=
  match ps with
  | [] => None
  | (m, p) :: ps' => if String.eqb n m then Some p else lookup n ps'
  end.
(* parameters are numbered from 1 *)
Definition numbered (digits : string) (ps : list (string * P)) : option P :=
  match NilEmpty.uint_of_string digits with
  | Some u => match Nat.of_uint u with 0 => None | S n => option_map snd (nth_error ps n) end
  | None => None
  end.
(* [next]: the parameters not yet used by RNext *)
Fixpoint resolve (ps next : list (string * P)) (l : list sitem) : option (list item * list (string * P)) :=
  match l with
  | [] => Some ([], next)
  | IC c :: l' => match resolve ps next l' with Some (r, n) => Some (Ch c :: r, n) | None => None end
  | IR r :: l' =>
      let here := match r with
                  | RNext => match next with (_, p) :: n => Some (p, n) | [] => None end
                  | RNum d => option_map (fun p => (p, next)) (numbered d ps)
                  | RName m => option_map (fun p => (p, next)) (lookup m ps)
                  end in
      match here with
      | Some (p, n) => match resolve ps n l' with Some (r, n') => Some (Va p :: r, n') | None => None end
      | None => None
      end
  end.
(* the statement the database executes; '?' and '%s' must use up the
   parameters *)
Definition bound (st : style) (text : string) (ps : list (string * P)) : option (list item) :=
  match scan st ZN text with
  | Some l =>
      match resolve ps ps l with
      | Some (r, n) => match st, n with (SQmark | SFormat), _ :: _ => None | _, _ => Some r end
      | None => None
      end
  | None => None
  end.

(* --- the SQL scanner --- *)
Inductive tok := TVal (p : P) | TId (s : string) | TStr (s : string) | TWord (s : string) | TSym (s : string).
(* between tokens; in a word; in a quoted identifier or after its last quote;
   in a string or after its last quote; after '<', '>' or '|' *)
Inductive lst := LN | LW (acc : string) | LI (acc : string) | LIQ (acc : string) | LS (acc : string)
| LSQ (acc : string) | LO (c : ascii).

Definition sym1 (c : ascii) : bool := has c "(),.=+-*/".
Definition sym2 (c : ascii) : bool := has c "<>|".

Fixpoint lex (z : lst) (l : list item) : option (list tok) :=
  match l with
  | [] =>
      match z with
      | LN => Some []
      | LW acc => Some [TWord acc]
      | LIQ acc => Some [TId acc]
      | LSQ acc => Some [TStr acc]
      | LO c => if Ascii.eqb c "|" then None else Some [TSym (String c "")]
      | LI _ | LS _ => None
      end
  | Va p :: l' =>
      let next := consO (TVal p) (lex LN l') in
      match z with
      | LN => next
      | LW acc => consO (TWord acc) next
      | LIQ acc => consO (TId acc) next
      | LSQ acc => consO (TStr acc) next
      | LO c => if Ascii.eqb c "|" then None else consO (TSym (String c "")) next
      | LI _ | LS _ => None
      end
  | Ch c :: l' =>
      let plain :=
        if Ascii.eqb c " " then lex LN l'
        else if Ascii.eqb c """" then lex (LI "") l'
        else if Ascii.eqb c "'" then lex (LS "") l'
        else if is_word c then lex (LW (String c "")) l'
        else if sym1 c then consO (TSym (String c "")) (lex LN l')
        else if sym2 c then lex (LO c) l'
        else None in
      match z with
      | LN => plain
      | LW acc => if is_word c then lex (LW (snoc acc c)) l' else consO (TWord acc) plain
      | LI acc => if Ascii.eqb c """" then lex (LIQ acc) l' else lex (LI (snoc acc c)) l'
      | LIQ acc => if Ascii.eqb c """" then lex (LI (snoc acc c)) l' else consO (TId acc) plain
      | LS acc => if Ascii.eqb c "'" then lex (LSQ acc) l' else lex (LS (snoc acc c)) l'
      | LSQ acc => if Ascii.eqb c "'" then lex (LS (snoc acc c)) l' else consO (TStr acc) plain
      | LO d =>
          if (Ascii.eqb d "<" && (Ascii.eqb c "=" || Ascii.eqb c ">"))
             || (Ascii.eqb d ">" && Ascii.eqb c "=") || (Ascii.eqb d "|" && Ascii.eqb c "|")
          then consO (TSym (String d (String c ""))) (lex LN l')
          else if Ascii.eqb d "|" then None else consO (TSym (String d "")) plain
      end
  end.

(* --- the SQL grammar --- *)
Inductive gop := GOr | GAnd | GEq | GNe | GLt | GGt | GLe | GGe | GLike | GAdd | GSub | GMul | GDiv | GCat.
Definition gtok (o : gop) : tok :=
  match o with
  | GOr => TWord "OR" | GAnd => TWord "AND" | GLike => TWord "LIKE"
  | GEq => TSym "=" | GNe => TSym "<>" | GLt => TSym "<" | GGt => TSym ">" | GLe => TSym "<=" | GGe => TSym ">="
  | GAdd => TSym "+" | GSub => TSym "-" | GMul => TSym "*" | GDiv => TSym "/" | GCat => TSym "||"
  end.

Inductive tree :=
| TrVal (p : P)                     (* a parameter's value *)
| TrCol (t c : string)              (* "t"."c" *)
| TrStr (s : string)                (* 's' *)
| TrBin (o : gop) (a b : tree)
| TrFun (f : string) (a : tree)     (* f(a) *)
| TrPos (a b : tree)                (* POSITION(a IN b) *)
| TrPart (f : string) (a : tree)    (* EXTRACT(f FROM a) *)
| TrStrf (f : string) (a : tree).   (* CAST(strftime('f',a) AS INTEGER) *)

Definition special (f : string) : bool :=
  String.eqb f "POSITION" || String.eqb f "EXTRACT" || String.eqb f "CAST".

(* A dialect gives each operator a level, the higher the tighter; all the
   operators are left associative *)
Definition dialect := gop -> nat.
Definition standard : dialect := fun o =>
  match o with
  | GOr => 1 | GAnd => 2
  | GEq | GNe | GLt | GGt | GLe | GGe | GLike => 4
  | GAdd | GSub => 5
  | GMul | GDiv | GCat => 6
  end.
(* sqlite.org/lang_expr.html: || binds tighter than the multiplications, and
   the inequalities tighter than the equalities *)
Definition sqlite_levels : dialect := fun o =>
  match o with
  | GOr => 1 | GAnd => 2
  | GEq | GNe | GLike => 3
  | GLt | GGt | GLe | GGe => 4
  | GAdd | GSub => 5
  | GMul | GDiv => 6
  | GCat => 7
  end.

(* [reads D l ts t]: the tokens ts can be read as the expression t, whose
   operators outside brackets have level l or more *)
Inductive reads (D : dialect) : nat -> list tok -> tree -> Prop :=
| r_val l p : reads D l [TVal p] (TrVal p)
| r_col l t c : reads D l [TId t; TSym "."; TId c] (TrCol t c)
| r_str l s : reads D l [TStr s] (TrStr s)
| r_paren l ts t : reads D 0 ts t -> reads D l (TSym "(" :: ts ++ [TSym ")"]) t
| r_bin l o ts1 ts2 a b : l <= D o -> reads D (D o) ts1 a -> reads D (S (D o)) ts2 b ->
    reads D l (ts1 ++ gtok o :: ts2) (TrBin o a b)
| r_fun l f ts a : special f = false -> reads D 0 ts a ->
    reads D l (TWord f :: TSym "(" :: ts ++ [TSym ")"]) (TrFun f a)
| r_pos l ts1 ts2 a b : reads D 0 ts1 a -> reads D 0 ts2 b ->
    reads D l (TWord "POSITION" :: TSym "(" :: ts1 ++ TWord "IN" :: ts2 ++ [TSym ")"]) (TrPos a b)
| r_part l f ts a : reads D 0 ts a ->
    reads D l (TWord "EXTRACT" :: TSym "(" :: TWord f :: TWord "FROM" :: ts ++ [TSym ")"]) (TrPart f a)
| r_strf l f ts a : reads D 0 ts a ->
    reads D l (TWord "CAST" :: TSym "(" :: TWord "strftime" :: TSym "(" :: TStr f :: TSym "," :: ts ++
               [TSym ")"; TWord "AS"; TWord "INTEGER"; TSym ")"]) (TrStrf f a).

(* The statement's text, with its parameters, can be read as t and as
   nothing else *)
Definition means (D : dialect) (st : style) (text : string) (ps : list (string * P)) (t : tree) : Prop :=
  exists its toks, bound st text ps = Some its /\ lex LN its = Some toks /\
    forall t', reads D 0 toks t' <-> t' = t.

(* --- the intended tree of an expression --- *)
Section Intended.
Variable sqlite : bool.
Variable prep : V -> option P.
Variable field : list string -> sx_res (string * string).

Definition bin_of (o : bop) : option gop :=
  match o with
  | BMember | BCast | BMod | BIsof => None
  | BMul => Some GMul | BDiv => Some GDiv | BAdd => Some GAdd | BSub => Some GSub | BLt => Some GLt | BGt => Some GGt
  | BLe => Some GLe | BGe => Some GGe | BEq => Some GEq | BNe => Some GNe | BAnd => Some GAnd | BOr => Some GOr
  end.
(* p0/p1/.../pn *)
Fixpoint path_of (e : ex V) : option (list string) :=
  match e with
  | EProp n => Some [n]
  | EBin BMember a b =>
      match path_of a, path_of b with Some l, Some r => Some (app l r) | _, _ => None end
  | _ => None
  end.
Definition col_of (p : option (list string)) : option tree :=
  match p with
  | Some l => match field l with SOk (t, c) => Some (TrCol t c) | SErr _ => None end
  | None => None
  end.
Definition pct : tree := TrStr "%".
Definition part (name fmt : string) (a : tree) : tree := if sqlite then TrStrf fmt a else TrPart name a.
Definition call_of (m : meth) (args : list (option tree)) : option tree :=
  let one k := match args with Some a :: _ => Some (k a) | _ => None end in
  let two k := match args with Some a :: Some b :: _ => Some (k a b) | _ => None end in
  match m with
  | MEndswith => two (fun a b => TrBin GLike a (TrBin GCat pct b))
  | MStartswith => two (fun a b => TrBin GLike a (TrBin GCat b pct))
  | MSubstringof => two (fun a b => TrBin GLike b (TrBin GCat pct (TrBin GCat a pct)))
  | MConcat => two (TrBin GCat)
  | MIndexof => two TrPos
  | MTolower => one (TrFun (if sqlite then "lower" else "LOWER"))
  | MToupper => one (TrFun (if sqlite then "upper" else "UPPER"))
  | MTrim => one (TrFun "TRIM")
  | MLength => one (TrFun (if sqlite then "length" else "CHAR_LENGTH"))
  | MYear => one (part "YEAR" "%Y")
  | MMonth => one (part "MONTH" "%m")
  | MDay => one (part "DAY" "%d")
  | MHour => one (part "HOUR" "%H")
  | MMinute => one (part "MINUTE" "%M")
  | MSecond => one (part "SECOND" "%S")
  | MReplace | MSubstring | MRound | MFloor | MCeiling => None
  end.
Fixpoint sql_of (e : ex V) : option tree :=
  match e with
  | ELit v => option_map TrVal (prep v)
  | EProp n => col_of (Some [n])
  | EUn _ => None
  | EBin BMember _ _ => col_of (path_of e)
  | EBin o a b =>
      match bin_of o, sql_of a, sql_of b with
      | Some g, Some x, Some y => Some (TrBin g x y)
      | _, _, _ => None
      end
  | ECall m args => call_of m (map sql_of args)
  end.
End Intended.

(* --- conditions on trees --- *)
Definition top (t : tree) : option gop := match t with TrBin o _ _ => Some o | _ => None end.
(* Q holds of every operator and its left and right operands *)
Fixpoint every (Q : gop -> tree -> tree -> Prop) (t : tree) : Prop :=
  match t with
  | TrVal _ | TrCol _ _ | TrStr _ => True
  | TrBin o a b => Q o a b /\ every Q a /\ every Q b
  | TrFun _ a | TrPart _ a | TrStrf _ a => every Q a
  | TrPos a b => every Q a /\ every Q b
  end.
(* operators that share a level of the standard share one of the dialect
   too, where one is an operand of the other *)
Definition same_in (D : dialect) (o : gop) (a : tree) : Prop :=
  match top a with Some o' => standard o' = standard o -> D o' = D o | None => True end.
Definition unmixed (D : dialect) : tree -> Prop := every (fun o a b => same_in D o a /\ same_in D o b).
(* no right operand has an operator of the level of the operator itself *)
Definition leftish : tree -> Prop :=
  every (fun o _ b => match top b with Some o' => standard o' <> standard o | None => True end).
(* as before, except that the right operand of AND, OR and || may be made of
   the same operator, that of + be a sum or a difference, that of * a product *)
Definition harmless (o o' : gop) : bool :=
  match o, o' with
  | GAnd, GAnd | GOr, GOr | GCat, GCat | GAdd, GAdd | GAdd, GSub | GMul, GMul => true
  | _, _ => false
  end.
(* all the operators of the level of o in b, outside brackets *)
Fixpoint follows (Q : gop -> gop -> Prop) (o : gop) (b : tree) : Prop :=
  match b with
  | TrBin o' x _ => standard o' = standard o -> Q o o' /\ follows Q o x
  | _ => True
  end.
Definition regular : tree -> Prop := every (fun o _ b => follows (fun x y => harmless x y = true) o b).
(* Where the two differ is in the order of the operators alone: a o (b o' c)
   is exchanged for (a o b) o' c when Q o o' *)
Inductive rotated (Q : gop -> gop -> Prop) : tree -> tree -> Prop :=
| ro_refl t : rotated Q t t
| ro_sym t u : rotated Q t u -> rotated Q u t
| ro_trans t u v : rotated Q t u -> rotated Q u v -> rotated Q t v
| ro_step o o' a b c : Q o o' -> rotated Q (TrBin o a (TrBin o' b c)) (TrBin o' (TrBin o a b) c)
| ro_bin o a a' b b' : rotated Q a a' -> rotated Q b b' -> rotated Q (TrBin o a b) (TrBin o a' b')
| ro_fun f a a' : rotated Q a a' -> rotated Q (TrFun f a) (TrFun f a')
| ro_part f a a' : rotated Q a a' -> rotated Q (TrPart f a) (TrPart f a')
| ro_strf f a a' : rotated Q a a' -> rotated Q (TrStrf f a) (TrStrf f a')
| ro_pos a a' b b' : rotated Q a a' -> rotated Q b b' -> rotated Q (TrPos a b) (TrPos a' b').

(* An interpretation of SQL expressions in any set of values *)
Record interp := {
  iW : Type;
  ival : P -> iW; icol : string -> string -> iW; istr : string -> iW; iop : gop -> iW -> iW -> iW;
  ifun : string -> iW -> iW; ipos : iW -> iW -> iW; ipart : string -> iW -> iW; istrf : string -> iW -> iW }.
Fixpoint value (I : interp) (t : tree) : iW I :=
  match t with
  | TrVal p => ival I p
  | TrCol t c => icol I t c
  | TrStr s => istr I s
  | TrBin o a b => iop I o (value I a) (value I b)
  | TrFun f a => ifun I f (value I a)
  | TrPos a b => ipos I (value I a) (value I b)
  | TrPart f a => ipart I f (value I a)
  | TrStrf f a => istrf I f (value I a)
  end.
(* AND, OR, + and * and || are associative, and a + (b - c) = (a + b) - c *)
Definition associative (I : interp) : Prop :=
  forall o o' a b c, harmless o o' = true -> iop I o a (iop I o' b c) = iop I o' (iop I o a b) c.

(* names without double quotes, and without % where % is special *)
Definition names_ok (st : style) (field : list string -> sx_res (string * string)) : Prop :=
  forall p t c, field p = SOk (t, c) ->
    has """" t = false /\ has """" c = false /\
    (st = SFormat \/ st = SPyformat -> has "%" t = false /\ has "%" c = false).
End Spec.
Arguments item : clear implicits.
Arguments tok : clear implicits.
Arguments tree : clear implicits.
