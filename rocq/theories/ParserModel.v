(** Model of BasicParser and ParserMixin, pyslet/unicode5.py 806-1386.

    Text and binary mode are treated together: a character or byte is an integer, and
    [self.raw] (which only selects literal types and the text of error messages) is dropped.
    ParserError.left/right/message are dropped; an error is its production and position.
    [str.lower] (Python library) is a parameter. *)
From Verif Require Import Py.

(** Python [l[i:j]] with integer indices of any sign *)
Definition pyidx {A} (l : list A) (i : Z) : nat :=
  if i <? 0 then Z.to_nat (Z.max 0 (i + Z.of_nat (length l))) else Z.to_nat i.
Definition pyslice {A} (l : list A) (i j : Z) : list A := slice (pyidx l i) (pyidx l j) l.
Definition pytail {A} (l : list A) (i : Z) : list A := skipn (pyidx l i) l.

Record perr := mke { e_prod : str; e_pos : Z }.

(** [raised] is a ghost: every error raised so far by parser_error, latest first; no method
    reads it. *)
Record parser := mkp {
  src : str; pos : Z; the_char : option Z; last_error : option perr; raised : list perr }.

Inductive exc := EParser (e : perr) | EValue.
Inductive out (A : Type) := Ret (a : A) | Raise (e : exc).
Arguments Ret {A} a.  Arguments Raise {A} e.
Definition M (A : Type) := parser -> out A * parser.
Definition ret {A} (a : A) : M A := fun p => (Ret a, p).
Definition bind {A B} (m : M A) (k : A -> M B) : M B := fun p =>
  match m p with (Ret a, p') => k a p' | (Raise e, p') => (Raise e, p') end.
Notation "'do' x <- m ; k" := (bind m (fun x => k)) (at level 200, x name, m at level 100, k at level 200).
Notation "m ;; k" := (bind m (fun _ => k)) (at level 100, k at level 200, right associativity).
Definition gets {A} (f : parser -> A) : M A := fun p => (Ret (f p), p).

(** the character at a position, None outside the source *)
Definition char_at (s : str) (i : Z) : option Z :=
  if (0 <=? i) && (i <? Z.of_nat (length s)) then nth_error s (Z.to_nat i) else None.

(** unicode5.py 1038-1046 [next_char] *)
Definition next_char : M unit := fun p =>
  let pos' := pos p + 1 in
  (Ret tt, mkp (src p) pos' (char_at (src p) pos') (last_error p) (raised p)).
(** unicode5.py 1024-1036 [setpos] *)
Definition setpos (new_pos : Z) : M unit := fun p =>
  next_char (mkp (src p) (new_pos - 1) (the_char p) (last_error p) (raised p)).
(** unicode5.py 1008-1022 [__init__] *)
Definition new_parser (source : str) : parser := snd (next_char (mkp source (-1) None None [])).

(** unicode5.py 1048-1089 [parser_error] *)
Definition parser_error {A} (production : option str) : M A := fun p =>
  let e :=
    match production with
    | Some (c :: s) => mke (c :: s) (pos p)
    | _ =>
      match last_error p with
      | Some le => if pos p <=? e_pos le then le else mke [] (pos p)
      | None => mke [] (pos p)
      end
    end in
  let le :=
    match last_error p with
    | None => Some e
    | Some le => if e_pos le <? e_pos e then Some e else Some le
    end in
  let p1 := mkp (src p) (pos p) (the_char p) le (e :: raised p) in
  let p2 := if e_pos e =? pos p then p1 else snd (setpos (e_pos e) p1) in
  (Raise (EParser e), p2).

(** unicode5.py 1091-1096 [peek] *)
Definition peek (nchars : Z) : M str := gets (fun p => pyslice (src p) (pos p) (pos p + nchars)).
(** unicode5.py 1098-1100 [match_end] *)
Definition match_end : M bool := gets (fun p => match the_char p with None => true | _ => false end).
Definition len (s : str) : Z := Z.of_nat (length s).
(** unicode5.py 1102-1108 [match] *)
Definition match_ (s : str) : M bool := gets (fun p =>
  match the_char p with
  | None => false
  | Some _ => str_eqb (pyslice (src p) (pos p) (pos p + len s)) s
  end).
(** unicode5.py 1110-1118 [parse] *)
Definition parse (s : str) : M (option str) :=
  do m <- match_ s;
  if m then do q <- gets pos; setpos (q + len s) ;; ret (Some s) else ret None.
(** unicode5.py 1120-1141 [require]: [if not self.parse(..)] is also true when the empty string is returned.
    The default production is the string itself (its repr in binary mode). *)
Definition require (s : str) (production : option str) : M str :=
  do r <- parse s;
  match r with
  | Some (_ :: _) => ret s
  | _ => parser_error (match production with None => Some s | x => x end)
  end.
Section lower.
Variable lower : str -> str.
(** unicode5.py 1143-1151 [match_insensitive] *)
Definition match_insensitive (s : str) : M bool := gets (fun p =>
  match the_char p with
  | None => false
  | Some _ => str_eqb (lower (pyslice (src p) (pos p) (pos p + len s))) s
  end).
(** unicode5.py 1153-1167 [parse_insensitive] *)
Definition parse_insensitive (s : str) : M (option str) :=
  do m <- match_insensitive s;
  if m then
    do q <- gets pos;
    do r <- gets (fun p => pyslice (src p) (pos p) (pos p + len s));
    setpos (q + len s) ;; ret (Some r)
  else ret None.
End lower.
(** [s.find(m, i)]: the first index at or after [i] where [m] occurs, or None (-1) *)
Fixpoint prefixb (m s : str) : bool :=
  match m, s with
  | [], _ => true
  | a :: m', b :: s' => (a =? b) && prefixb m' s'
  | _, _ => false
  end.
Fixpoint find_from (m s : str) (k : nat) : option nat :=
  if prefixb m s then Some k
  else match s with [] => None | _ :: s' => find_from m s' (S k) end.
Definition find (s m : str) (i : Z) : option nat :=
  let k := pyidx s i in
  if (length s <? k)%nat then None else find_from m (skipn k s) k.
(** unicode5.py 1169-1187 [parse_until] *)
Definition parse_until (m : option str) : M str :=
  do mp <- gets (fun p => match m with None => None | Some m => find (src p) m (pos p) end);
  match mp with
  | None =>
    do r <- gets (fun p => pytail (src p) (pos p));
    do n <- gets (fun p => len (src p));
    setpos n ;; ret r
  | Some k =>
    do r <- gets (fun p => pyslice (src p) (pos p) (Z.of_nat k));
    setpos (Z.of_nat k) ;; ret r
  end.
(** unicode5.py 1189-1198 [match_one] *)
Definition match_one (cs : str) : M bool := gets (fun p =>
  match the_char p with None => false | Some c => zin c cs end).
(** unicode5.py 1200-1228 [parse_one] *)
Definition parse_one (cs : str) : M (option Z) :=
  do m <- match_one cs;
  if m then do c <- gets the_char; next_char ;; ret c else ret None.
(** unicode5.py 1230-1231 u_digits, b_digits *)
Definition digits : str := lit "0123456789".
(** unicode5.py 1233-1241, 1243-1251 [match_digit], [parse_digit] *)
Definition match_digit : M bool := match_one digits.
Definition parse_digit : M (option Z) := parse_one digits.
(** unicode5.py 1253-1266 [parse_digit_value] *)
Definition parse_digit_value : M (option Z) :=
  do r <- parse_one digits;
  ret (match r with Some c => Some (c - 48) | None => None end).
(** the loops of unicode5.py 1286-1292 and 1379-1384, on fuel; running out of
    fuel is an exception, and ParserProofs.many_eq shows it cannot happen: the fuel is one more
    than the number of characters *)
Fixpoint many (fuel : nat) (cs : str) (max : option Z) (n : Z) : M str :=
  match fuel with
  | O => fun p => (Raise EValue, p)
  | S fuel' =>
    if match max with None => true | Some m => n <? m end then
      do d <- parse_one cs;
      match d with
      | None => ret []
      | Some c => do r <- many fuel' cs max (n + 1); ret (c :: r)
      end
    else ret []
  end.
Definition bad_bounds (min : Z) (max : option Z) : bool :=
  (min <? 0) || match max with Some m => m <? min | None => false end.
(** unicode5.py 1268-1298 [parse_digits] *)
Definition parse_digits (min : Z) (max : option Z) : M (option str) :=
  if bad_bounds min max then fun p => (Raise EValue, p)
  else
    do savepos <- gets pos;
    do n <- gets (fun p => length (src p));
    do r <- many (S n) digits max 0;
    if len r <? min then setpos savepos ;; ret None else ret (Some r).
(** [int(d)] of a string of ASCII digits (Python library) *)
Definition dec_value (s : str) : Z := fold_left (fun a c => a * 10 + (c - 48)) s 0.
(** unicode5.py 1300-1331 [parse_integer] *)
Definition parse_integer (min max max_digits : option Z) : M (option Z) :=
  let min := match min with None => 0 | Some m => m end in
  if bad_bounds min max then fun p => (Raise EValue, p)
  else
    do savepos <- gets pos;
    do d <- parse_digits 1 max_digits;
    match d with
    | None => ret None
    | Some s =>
      let d := dec_value s in
      if (d <? min) || match max with Some m => m <? d | None => false end
      then setpos savepos ;; ret None
      else ret (Some d)
    end.
(** unicode5.py 1333-1356 u_hex_digits, match_hex_digit, parse_hex_digit *)
Definition hex_digits : str := lit "0123456789abcdefABCDEF".
Definition match_hex_digit : M bool := match_one hex_digits.
Definition parse_hex_digit : M (option Z) := parse_one hex_digits.
(** unicode5.py 1358-1388 [parse_hex_digits]: the loop only counts, the text is sliced from the source *)
Definition parse_hex_digits (min : Z) (max : option Z) : M (option str) :=
  if bad_bounds min max then fun p => (Raise EValue, p)
  else
    do savepos <- gets pos;
    do n <- gets (fun p => length (src p));
    do r <- many (S n) hex_digits max 0;
    let rlen := len r in
    if rlen <? min then setpos savepos ;; ret None
    else do s <- gets (fun p => pyslice (src p) savepos (savepos + rlen)); ret (Some s).
(** unicode5.py 868-888 [require_production] *)
Definition require_production {A} (result : option A) (production : option str) : M A :=
  match result with None => parser_error production | Some r => ret r end.
(** unicode5.py 916-921 [require_end] *)
Definition require_end (production : option str) : M unit :=
  do e <- match_end; if e then ret tt else parser_error production.
(** unicode5.py 890-914 [parse_production]: every ValueError (ParserError is one) is caught *)
Definition parse_production {A} (m : M A) : M (option A) := fun p =>
  match m p with
  | (Ret a, p') => (Ret (Some a), p')
  | (Raise _, p') => (Ret None, snd (setpos (pos p) p'))
  end.

(** * Programs: any parser method written with the API.  A program makes calls and continues
    with their results, or raises ValueError itself; [Try] is parse_production. *)
Inductive val := VNone | VBool (b : bool) | VChar (c : Z) | VStr (s : str) | VInt (z : Z).
Inductive op :=
| OSetPos (n : Z) | ONextChar | OError (production : option str) | OPeek (n : Z) | OMatchEnd
| OMatch (s : str) | OParse (s : str) | ORequire (s : str) (production : option str)
| OMatchI (s : str) | OParseI (s : str) | OParseUntil (m : option str)
| OMatchOne (cs : str) | OParseOne (cs : str) | OMatchDigit | OParseDigit | OParseDigitValue
| OParseDigits (min : Z) (max : option Z) | OParseInteger (min max max_digits : option Z)
| OMatchHex | OParseHex | OParseHexDigits (min : Z) (max : option Z) | ORequireEnd (production : option str).

Definition vopt {A} (f : A -> val) (o : option A) : val := match o with Some a => f a | None => VNone end.
Definition mmap {A} (f : A -> val) (m : M A) : M val := do a <- m; ret (f a).

Definition do_op (lower : str -> str) (o : op) : M val :=
  match o with
  | OSetPos n => mmap (fun _ => VNone) (setpos n)
  | ONextChar => mmap (fun _ => VNone) next_char
  | OError pr => parser_error pr
  | OPeek n => mmap VStr (peek n)
  | OMatchEnd => mmap VBool match_end
  | OMatch s => mmap VBool (match_ s)
  | OParse s => mmap (vopt VStr) (parse s)
  | ORequire s pr => mmap VStr (require s pr)
  | OMatchI s => mmap VBool (match_insensitive lower s)
  | OParseI s => mmap (vopt VStr) (parse_insensitive lower s)
  | OParseUntil m => mmap VStr (parse_until m)
  | OMatchOne cs => mmap VBool (match_one cs)
  | OParseOne cs => mmap (vopt VChar) (parse_one cs)
  | OMatchDigit => mmap VBool match_digit
  | OParseDigit => mmap (vopt VChar) parse_digit
  | OParseDigitValue => mmap (vopt VInt) parse_digit_value
  | OParseDigits a b => mmap (vopt VStr) (parse_digits a b)
  | OParseInteger a b c => mmap (vopt VInt) (parse_integer a b c)
  | OMatchHex => mmap VBool match_hex_digit
  | OParseHex => mmap (vopt VChar) parse_hex_digit
  | OParseHexDigits a b => mmap (vopt VStr) (parse_hex_digits a b)
  | ORequireEnd pr => mmap (fun _ => VNone) (require_end pr)
  end.

Inductive prog :=
| PRet (v : val)
| PFail
| PCall (o : op) (k : val -> prog)
| PTry (m : prog) (k : option val -> prog).

Fixpoint exec (lower : str -> str) (g : prog) : M val :=
  match g with
  | PRet v => ret v
  | PFail => fun p => (Raise EValue, p)
  | PCall o k => do v <- do_op lower o; exec lower (k v)
  | PTry m k => do r <- parse_production (exec lower m); exec lower (k r)
  end.
