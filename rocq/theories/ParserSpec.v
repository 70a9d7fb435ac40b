(** Specification vocabulary for C07-C09. *)
From Verif Require Import Py ParserModel.

(** [t] is the text of the source at position [i] *)
Definition text_at (s : str) (i : Z) (t : str) : Prop :=
  t = [] \/ exists before after, s = before ++ t ++ after /\ Z.of_nat (length before) = i.

(** match_*, peek: the calls that must not change the parser *)
Definition pure_op (o : op) : bool :=
  match o with
  | OPeek _ | OMatchEnd | OMatch _ | OMatchI _ | OMatchOne _ | OMatchDigit | OMatchHex => true
  | _ => false
  end.
(** parse_*: the look-ahead calls *)
Definition parse_op (o : op) : bool :=
  match o with
  | OParse _ | OParseI _ | OParseOne _ | OParseDigit | OParseDigitValue
  | OParseDigits _ _ | OParseInteger _ _ _ | OParseHex | OParseHexDigits _ _ => true
  | _ => false
  end.
(** the decimal number written by a string of digits *)
Fixpoint decimal (s : str) : Z :=
  match s with [] => 0 | c :: s' => (c - 48) * 10 ^ Z.of_nat (length s') + decimal s' end.
(** the text a result stands for *)
Definition stands_for (v : val) (t : str) : Prop :=
  match v with
  | VStr s => t = s
  | VChar c => t = [c]
  | VInt z => t <> [] /\ Forall (fun c => 48 <= c <= 57) t /\ decimal t = z
  | _ => False
  end.
(** the bounds that parse_digits etc. document: 0 <= min <= max *)
Definition bounds_ok (min : Z) (max : option Z) : Prop :=
  0 <= min /\ forall m, max = Some m -> min <= m.
Definition op_ok (o : op) : Prop :=
  match o with
  | OParseDigits min max | OParseHexDigits min max => bounds_ok min max
  | OParseInteger min max md =>
      bounds_ok (match min with None => 0 | Some m => m end) max /\ bounds_ok 1 md
  | _ => True
  end.

(** [t] is the longest run of [ok] characters in the source at [i], cut at [max] characters *)
Definition longest_run (ok : Z -> Prop) (s : str) (i : Z) (max : option Z) (t : str) : Prop :=
  exists before after, s = before ++ t ++ after /\ Z.of_nat (length before) = i /\
    Forall ok t /\ (forall m, max = Some m -> Z.of_nat (length t) <= m) /\
    (max = Some (Z.of_nat (length t)) \/ after = [] \/ exists c l, after = c :: l /\ ~ ok c).

Definition digit (c : Z) : Prop := 48 <= c <= 57.
Definition hexdigit (c : Z) : Prop := 48 <= c <= 57 \/ 65 <= c <= 70 \/ 97 <= c <= 102.

(** the states reachable by any program from a new parser *)
Definition reachable (lower : str -> str) (s : str) (p : parser) : Prop :=
  exists g r, exec lower g (new_parser s) = (r, p).

(** [m] occurs in [s] at index [k] *)
Definition occurs_at (m s : str) (k : nat) : Prop := exists b a, s = b ++ m ++ a /\ length b = k.
