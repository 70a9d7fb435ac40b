(** The values of SQL expressions: three-valued logic, integers and strings.  The specification
    against which C101 compares the filters of the SQL collections (SxModel) with those evaluated
    in memory (EvalModel, core.py check_filter). *)
From Verif Require Import Py ExprModel EvalModel SxModel SxSpec.
Local Open Scope Z_scope.

(** SQL values *)
Inductive sv := VNull | VB (b : bool) | VI (z : Z) | VS (s : str).

(** a LIKE pattern: % stands for any text, _ for one character.  [fold]: what LIKE does to the case
    of characters: nothing in the standard; SQLite ignores the case of A-Z *)
Section Like.
Variable fold : Z -> Z.
Fixpoint like (p s : str) {struct p} : bool :=
  match p with
  | nil => match s with nil => true | _ => false end
  | c :: p' =>
    if c =? 37 then
      (fix any (s : str) : bool := like p' s || match s with nil => false | _ :: s' => any s' end) s
    else match s with
         | nil => false
         | d :: s' => ((c =? 95) || (fold c =? fold d)) && like p' s'
         end
  end.
End Like.
Definition no_fold (c : Z) : Z := c.
Definition ascii_fold (c : Z) : Z := if (65 <=? c) && (c <=? 90) then c + 32 else c.

(** strings are compared by their code points *)
Fixpoint str_cmp (a b : str) : comparison :=
  match a, b with
  | nil, nil => Eq
  | nil, _ :: _ => Lt
  | _ :: _, nil => Gt
  | x :: a, y :: b => match x ?= y with Eq => str_cmp a b | c => c end
  end.

Definition b3 (v : sv) : option bool := match v with VB b => Some b | _ => None end.
Definition of3 (o : option bool) : sv := match o with Some b => VB b | None => VNull end.
Definition and3 (a b : option bool) : option bool :=
  match a, b with
  | Some false, _ | _, Some false => Some false
  | Some true, Some true => Some true
  | _, _ => None
  end.
Definition or3 (a b : option bool) : option bool :=
  match a, b with
  | Some true, _ | _, Some true => Some true
  | Some false, Some false => Some false
  | _, _ => None
  end.
(** a comparison with NULL, or of things that cannot be compared, is NULL *)
Definition cmp (f : comparison -> bool) (a b : sv) : sv :=
  match a, b with
  | VI x, VI y => VB (f (x ?= y))
  | VS x, VS y => VB (f (str_cmp x y))
  | _, _ => VNull
  end.
Definition num (f : Z -> Z -> option Z) (a b : sv) : sv :=
  match a, b with
  | VI x, VI y => match f x y with Some z => VI z | None => VNull end
  | _, _ => VNull
  end.
Definition sql_op (fold : Z -> Z) (o : gop) (a b : sv) : sv :=
  match o with
  | GOr => of3 (or3 (b3 a) (b3 b))
  | GAnd => of3 (and3 (b3 a) (b3 b))
  | GEq => cmp (fun c => match c with Eq => true | _ => false end) a b
  | GNe => cmp (fun c => match c with Eq => false | _ => true end) a b
  | GLt => cmp (fun c => match c with Lt => true | _ => false end) a b
  | GGt => cmp (fun c => match c with Gt => true | _ => false end) a b
  | GLe => cmp (fun c => match c with Gt => false | _ => true end) a b
  | GGe => cmp (fun c => match c with Lt => false | _ => true end) a b
  | GLike => match a, b with VS s, VS p => VB (like fold p s) | _, _ => VNull end
  | GAdd => num (fun x y => Some (x + y)) a b
  | GSub => num (fun x y => Some (x - y)) a b
  | GMul => num (fun x y => Some (x * y)) a b
  | GDiv => num (fun x y => if y =? 0 then None else Some (Z.quot x y)) a b
  | GCat => match a, b with VS s, VS t => VS (s ++ t) | _, _ => VNull end
  end.
(** POSITION(a IN b): counted from 1, 0 if a does not occur in b *)
Definition position (a b : sv) : sv :=
  match a, b with VS p, VS s => VI (find_ p s + 1) | _, _ => VNull end.
(** the functions' names do not matter to what is proved; the length is given *)
Definition sql_fun (f : string) (a : sv) : sv :=
  if (String.eqb f "CHAR_LENGTH" || String.eqb f "length")%bool then
    match a with VS s => VI (Z.of_nat (List.length s)) | _ => VNull end
  else VNull.

Definition sql (fold : Z -> Z) (row : string -> string -> sv) : interp (P := sv) :=
  {| iW := sv; ival := fun p => p; icol := row; istr := fun s => VS (lit s); iop := sql_op fold;
     ifun := sql_fun; ipos := position; ipart := fun _ _ => VNull; istrf := fun _ _ => VNull |}.

(** ** The expression in memory, and the row of an entity *)
Definition conv_op (o : bop) : binop :=
  match o with
  | SxModel.BMember => ExprModel.BMember | SxModel.BCast => ExprModel.BCast | SxModel.BMul => ExprModel.BMul
  | SxModel.BDiv => ExprModel.BDiv | SxModel.BMod => ExprModel.BMod | SxModel.BAdd => ExprModel.BAdd
  | SxModel.BSub => ExprModel.BSub | SxModel.BLt => ExprModel.BLt | SxModel.BGt => ExprModel.BGt
  | SxModel.BLe => ExprModel.BLe | SxModel.BGe => ExprModel.BGe | SxModel.BIsof => ExprModel.BIsOf
  | SxModel.BEq => ExprModel.BEq | SxModel.BNe => ExprModel.BNe | SxModel.BAnd => ExprModel.BAnd
  | SxModel.BOr => ExprModel.BOr
  end.
Definition meth_name (m : meth) : str :=
  lit match m with
      | MEndswith => "endswith" | MIndexof => "indexof" | MReplace => "replace" | MStartswith => "startswith"
      | MTolower => "tolower" | MToupper => "toupper" | MTrim => "trim" | MSubstring => "substring"
      | MSubstringof => "substringof" | MConcat => "concat" | MLength => "length" | MYear => "year"
      | MMonth => "month" | MDay => "day" | MHour => "hour" | MMinute => "minute" | MSecond => "second"
      | MRound => "round" | MFloor => "floor" | MCeiling => "ceiling"
      end.
Fixpoint conv (e : ex lit_) : expr :=
  match e with
  | ELit l => XLit l
  | EProp n => XProp (lit n)
  | EUn a => XUn ExprModel.ONot [Some (conv a)]
  | EBin o a b => XBin (conv_op o) [Some (conv a); Some (conv b)]
  | ECall m args => XCall (meth_name m) (map (fun a => Some (conv a)) args)
  end.

(** prepare_sql_value, sqlds.py 5107-5176, for these types *)
Definition prep_lit (l : lit_) : option sv :=
  match l with
  | LNull => Some VNull
  | LBool b => Some (VB b)
  | LInt32 z | LInt64 z => Some (VI z)
  | LStr s => Some (VS s)
  | _ => None
  end.
Section Row.
Variable L : lib.
Definition sv_of (o : option (slot L)) : sv :=
  match o with
  | Some (SObj _ (OVal _ _ (Some (PBool _ b)))) => VB b
  | Some (SObj _ (OVal _ _ (Some (PInt _ z)))) => VI z
  | Some (SObj _ (OVal _ _ (Some (PStr _ s)))) => VS s
  | _ => VNull
  end.
(** each property is a column of its name *)
Definition row_of (props : list (str * slot L)) (_ c : string) : sv := sv_of (assoc (lit c) props).

(** integers, strings and booleans that are not null *)
Definition plain_value (t : tc) (p : pv L) : Prop :=
  match t, p with
  | (Byte | Int16 | Int32 | Int64), PInt _ _ | String_, PStr _ _ | Boolean, PBool _ _ => True
  | _, _ => False
  end.
Definition no_nulls (props : list (str * slot L)) : Prop :=
  forall n o, assoc n props = Some o -> exists t p, o = SObj L (OVal L (Some t) (Some p)) /\ plain_value t p.

(** the expressions considered *)
Fixpoint simple (e : ex lit_) : bool :=
  match e with
  | ELit (LBool _ | LInt32 _ | LInt64 _ | LStr _) => true
  | EProp _ => true
  | EBin (SxModel.BMul | SxModel.BAdd | SxModel.BSub | SxModel.BLt | SxModel.BGt | SxModel.BLe | SxModel.BGe
         | SxModel.BEq | SxModel.BNe | SxModel.BAnd | SxModel.BOr) a b => simple a && simple b
  | ECall (MStartswith | MEndswith | MSubstringof | MConcat) [a; b] => simple a && simple b
  | ECall MLength [a] => simple a
  | _ => false
  end.
(** no text searched for has a % or _ *)
Definition plain_text (s : str) : Prop := ~ In 37 s /\ ~ In 95 s.
Definition plain_arg (ent : EvalModel.value L) (e : ex lit_) : Prop :=
  forall t s, eval L (Some ent) (conv e) = Ok (OVal L t (Some (PStr L s))) -> plain_text s.
Fixpoint plain_patterns (ent : EvalModel.value L) (e : ex lit_) : Prop :=
  match e with
  | ELit _ | EProp _ => True
  | EUn a => plain_patterns ent a
  | EBin _ a b => plain_patterns ent a /\ plain_patterns ent b
  | ECall m args =>
    match m, args with
    | (MStartswith | MEndswith), [_; b] => plain_arg ent b
    | MSubstringof, [a; _] => plain_arg ent a
    | _, _ => True
    end /\ (fix all (l : list (ex lit_)) : Prop := match l with nil => True | a :: l => plain_patterns ent a /\ all l end) args
  end.
End Row.
