(** Specification: the meaning of one-character regular expressions in Python's [re] module
    (CPython Lib/sre_parse.py, parsing of a single literal, of an escape and of a character
    set), for text patterns with no flags.  [None] means that the pattern is malformed, or
    is not a one-character pattern described here.  Independent of pyslet. *)
From Verif Require Import Py.

Definition backslash : Z := 92.
Definition lbracket : Z := 91.
Definition rbracket : Z := 93.
Definition caret : Z := 94.
Definition dash : Z := 45.

Definition is_ascii_alnum (c : Z) : bool :=
  ((48 <=? c) && (c <=? 57)) || ((65 <=? c) && (c <=? 90)) || ((97 <=? c) && (c <=? 122)).

Definition hexval (c : Z) : option Z :=
  if (48 <=? c) && (c <=? 57) then Some (c - 48)
  else if (65 <=? c) && (c <=? 70) then Some (c - 55)
  else if (97 <=? c) && (c <=? 102) then Some (c - 87)
  else None.

(** the character denoted by an escape: backslash, [c], rest [r] *)
Definition re_escape_char (in_set : bool) (c : Z) (r : str) : option (Z * str) :=
  if c =? ch "a" then Some (7, r)
  else if (c =? ch "b") && in_set then Some (8, r)
  else if c =? ch "f" then Some (12, r)
  else if c =? ch "n" then Some (10, r)
  else if c =? ch "r" then Some (13, r)
  else if c =? ch "t" then Some (9, r)
  else if c =? ch "v" then Some (11, r)
  else if c =? ch "x" then
    match r with
    | h1 :: h2 :: r' =>
      match hexval h1, hexval h2 with
      | Some a, Some b => Some (a * 16 + b, r')
      | _, _ => None
      end
    | _ => None
    end
  else if is_ascii_alnum c then None
  else Some (c, r).

(** one set member (literal or escape) *)
Definition re_member (s : str) : option (Z * str) :=
  match s with
  | [] => None
  | c :: r =>
    if c =? backslash then
      match r with [] => None | e :: r' => re_escape_char true e r' end
    else Some (c, r)
  end.

(** members up to the closing bracket; [first] says that no member has been read yet *)
Fixpoint re_members (fuel : nat) (first : bool) (s : str) : option (list (Z * Z) * str) :=
  match fuel with
  | O => None
  | S fuel' =>
    match s with
    | [] => None
    | c0 :: r0 =>
      if (c0 =? rbracket) && negb first then Some ([], r0)
      else
        match re_member s with
        | None => None
        | Some (lo, r) =>
          match r with
          | d :: r1 =>
            if d =? dash then
              match r1 with
              | [] => None
              | e :: r2 =>
                if e =? rbracket then Some ([(lo, lo); (dash, dash)], r2)
                else
                  match re_member r1 with
                  | None => None
                  | Some (hi, r3) =>
                    if hi <? lo then None
                    else match re_members fuel' false r3 with
                         | Some (items, rest) => Some ((lo, hi) :: items, rest)
                         | None => None
                         end
                  end
              end
            else match re_members fuel' false r with
                 | Some (items, rest) => Some ((lo, lo) :: items, rest)
                 | None => None
                 end
          | [] => None
          end
        end
    end
  end.

Definition in_items (items : list (Z * Z)) (c : Z) : bool :=
  existsb (fun it => (fst it <=? c) && (c <=? snd it)) items.

Definition re_special (c : Z) : bool := zin c (lit ".^$*+?{}\[]|()").

(** [re_one s = Some f]: s is a regular expression matching exactly the one-character strings
    [c] with [f c = true] *)
Definition re_one (s : str) : option (Z -> bool) :=
  match s with
  | [] => None
  | c :: r =>
    if c =? lbracket then
      let (neg, body) :=
        match r with
        | x :: r' => if x =? caret then (true, r') else (false, r)
        | [] => (false, r)
        end in
      match re_members (S (length body)) true body with
      | Some (items, []) => Some (fun x => xorb neg (in_items items x))
      | _ => None
      end
    else if c =? backslash then
      match r with
      | e :: r' => match re_escape_char false e r' with
                   | Some (v, []) => Some (fun x => x =? v)
                   | _ => None
                   end
      | [] => None
      end
    else if re_special c then None
    else match r with [] => Some (fun x => x =? c) | _ => None end
  end.
