(** Model of pyslet/http/grammar.py (Python 3: a byte is an integer, a binary string is a list of
    bytes).

    Simplifications: an OctetParser is represented by the bytes not yet parsed, and a WordParser by
    the words not yet parsed, so that positions, word_pos and the messages of errors are left out;
    an exception leaves the parser nowhere in particular (the one method that goes on after an
    exception, parse_parameters, goes back to where it was).  The loops take as fuel the
    number of bytes, or words, left. *)
From Verif Require Import Py.

(** lines 14-21, 39-41, 57-59, 81-84: character classes *)
Definition is_octet (b : Z) : bool := b <? 256.
Definition is_chr (b : Z) : bool := b <? 128.
Definition is_digit (b : Z) : bool := (48 <=? b) && (b <=? 57).
Definition is_ctl (b : Z) : bool := (b <? 32) || (b =? 127).
Definition is_hex (b : Z) : bool :=
  is_digit b || ((65 <=? b) && (b <=? 70)) || ((97 <=? b) && (b <=? 102)).
(** lines 44-54, 87-97: false for the empty string *)
Definition all_of (f : Z -> bool) (s : str) : bool :=
  match s with nil => false | _ => forallb f s end.
Definition is_digits : str -> bool := all_of is_digit.
Definition is_hexdigits : str -> bool := all_of is_hex.

(** line 100 *)
Definition SEPARATORS : str := lit "()<>@,;:\""/[]?={} " ++ [9].
(** lines 120-122 *)
Definition is_separator (b : Z) : bool := zin b SEPARATORS.

(** lines 125-140 (of a binary string) *)
Definition check_token (t : str) : res str :=
  if existsb (fun b => is_separator b || is_ctl b || negb (is_chr b)) t then Err ValueError else Ok t.

(** lines 143-166.  The slice [1:-1] of a string *)
Definition inner (q : str) : str := removelast (tl q).
Fixpoint unescape (escape : bool) (q : str) : str :=
  match q with
  | nil => nil
  | b :: t => if negb escape && (b =? 92) then unescape true t else b :: unescape false t
  end.
Definition decode_quoted_string (qstring : str) : str :=
  let q := inner qstring in
  if zin 92 q then unescape false q else q.

(** lines 169-194: the bytes between the quotes, and the value of force after the loop *)
Fixpoint quote_loop (s : str) (force : bool) : str * bool :=
  match s with
  | nil => (nil, force)
  | b :: t =>
      if zin b [92; 34] || (is_ctl b && negb (zin b [32; 9]))
      then let '(q, f) := quote_loop t true in (92 :: b :: q, f)
      else if is_ctl b || is_separator b
      then let '(q, f) := quote_loop t true in (b :: q, f)
      else let '(q, f) := quote_loop t force in (b :: q, f)
  end.
Definition quote_string (s : str) (force : bool) : str :=
  let '(q, f) := quote_loop s force in
  if f then 34 :: q ++ [34] else q.

Definition sp_ht (c : Z) : bool := zin c [32; 9].
Fixpoint span (f : Z -> bool) (s : str) : str * str :=
  match s with
  | nil => (nil, nil)
  | c :: t => if f c then let '(a, b) := span f t in (c :: a, b) else (nil, s)
  end.

(** lines 233-253 *)
Definition parse_lws (s : str) : option (str * str) :=
  let '(l, s1) := match s with
                  | 13 :: 10 :: r => ([13; 10], r)
                  | _ => (nil, s)
                  end in
  let '(w, s2) := span sp_ht s1 in
  match w with
  | nil => None
  | _ => Some (l ++ w, s2)
  end.

(** lines 255-286: the bytes of the answer (a byte or a string of LWS, no caller tells them apart) *)
Definition parse_onetext (unfold : bool) (s : str) : option (str * str) :=
  match parse_lws s with
  | Some (l, r) => Some (if unfold && str_eqb (firstn 2 l) [13; 10] then [32] else l, r)
  | None => match s with
            | c :: r => if is_octet c && negb (is_ctl c) then Some ([c], r) else None
            | nil => None
            end
  end.

(** lines 288-311 (parse_text) with nothing to stop at, lines 372-405 (parse_ctext) stopping at
    brackets and the backslash, lines 438-467 (parse_qdtext) stopping at the double quote and the
    backslash; nil where the code returns None *)
Fixpoint run_text (fuel : nat) (stop : str) (unfold : bool) (s : str) : str * str :=
  match fuel with
  | O => (nil, s)
  | S f => match s with
           | nil => (nil, nil)
           | c :: _ =>
               if zin c stop then (nil, s)
               else match parse_onetext unfold s with
                    | None => (nil, s)
                    | Some (x, r) => let '(y, r') := run_text f stop unfold r in (x ++ y, r')
                    end
           end
  end.
Definition parse_text (unfold : bool) (s : str) : str * str := run_text (length s) nil unfold s.
Definition parse_ctext (unfold : bool) (s : str) : str * str := run_text (length s) (lit "()\") unfold s.
Definition parse_qdtext (unfold : bool) (s : str) : str * str := run_text (length s) [34; 92] unfold s.

(** lines 313-329; nil where the code returns None *)
Definition is_tokchar (c : Z) : bool := negb (is_ctl c || is_separator c).
Definition parse_token_bytes (s : str) : str * str := span is_tokchar s.

(** lines 469-483: a backslash and a CHAR *)
Definition parse_quoted_pair (s : str) : option (str * str) :=
  match s with
  | c :: r => if c =? 92 then match r with
                              | x :: r' => if is_chr x then Some ([92; x], r') else None
                              | nil => None
                              end
              else None
  | nil => None
  end.

(** lines 331-370, after the first bracket *)
Fixpoint comment_loop (fuel : nat) (unfold : bool) (depth : nat) (s : str) : res (str * str) :=
  match fuel with
  | O => Err ParserError
  | S f =>
      match s with
      | nil => Err ParserError
      | c :: r =>
          if c =? 41 then
            match depth with
            | S (S d) => let! (x, r') := comment_loop f unfold (S d) r in Ok (41 :: x, r')
            | _ => Ok ([41], r)
            end
          else if c =? 40 then let! (x, r') := comment_loop f unfold (S depth) r in Ok (40 :: x, r')
          else if c =? 92 then
            match parse_quoted_pair s with
            | None => Err ParserError
            | Some (q, r') => let! (x, r2) := comment_loop f unfold depth r' in Ok (q ++ x, r2)
            end
          else
            match parse_ctext unfold s with
            | (nil, _) => Err ParserError
            | (t, r') => let! (x, r2) := comment_loop f unfold depth r' in Ok (t ++ x, r2)
            end
      end
  end.
Definition parse_comment (unfold : bool) (s : str) : res (option str * str) :=
  match s with
  | c :: r => if c =? 40 then let! (x, r') := comment_loop (length s) unfold 1 r in Ok (Some (40 :: x), r')
              else Ok (None, s)
  | nil => Ok (None, s)
  end.

(** lines 407-436, after the first quote *)
Fixpoint quoted_loop (fuel : nat) (unfold : bool) (s : str) : res (str * str) :=
  match fuel with
  | O => Ok (nil, s)
  | S f =>
      match s with
      | nil => Ok (nil, nil)
      | c :: r =>
          if c =? 34 then Ok ([34], r)
          else if c =? 92 then
            match parse_quoted_pair s with
            | None => Err ParserError
            | Some (q, r') => let! (x, r2) := quoted_loop f unfold r' in Ok (q ++ x, r2)
            end
          else
            match parse_qdtext unfold s with
            | (nil, _) => Err ParserError
            | (t, r') => let! (x, r2) := quoted_loop f unfold r' in Ok (t ++ x, r2)
            end
      end
  end.
Definition parse_quoted_string (unfold : bool) (s : str) : res (option str * str) :=
  match s with
  | c :: r => if c =? 34 then let! (x, r') := quoted_loop (length s) unfold r in Ok (Some (34 :: x), r')
              else Ok (None, s)
  | nil => Ok (None, s)
  end.

(** A word: a separator or SP, or a binary string *)
Inductive word := WByte (b : Z) | WStr (s : str).

(** lines 582-584: the white space before a word, and whether there was any *)
Fixpoint skip_lws (fuel : nat) (s : str) : str * bool :=
  match fuel with
  | O => (s, false)
  | S f => match parse_lws s with
           | None => (s, false)
           | Some (_, r) => (fst (skip_lws f r), true)
           end
  end.
(** lines 577-608 *)
Fixpoint words_loop (fuel : nat) (ignore_sp : bool) (s : str) : res (list word) :=
  match fuel with
  | O => Ok nil
  | S f =>
      match s with
      | nil => Ok nil
      | _ =>
          let '(s1, sp) := skip_lws (length s) s in
          let pre := if sp && negb ignore_sp then [WByte 32] else nil in
          match s1 with
          | nil => Ok pre
          | c :: r =>
              let! (w, s2) :=
                if is_separator c then
                  if c =? 40 then
                    let! (x, s2) := parse_comment true s1 in
                    match x with Some x => Ok (WStr x, s2) | None => Err TypeError end
                  else if c =? 34 then
                    let! (x, s2) := parse_quoted_string true s1 in
                    match x with Some x => Ok (WStr x, s2) | None => Err TypeError end
                  else Ok (WByte c, r)
                else
                  match parse_token_bytes s1 with
                  | (nil, _) => Err ParserError
                  | (t, s2) => Ok (WStr t, s2)
                  end in
              let! ws := words_loop f ignore_sp s2 in
              Ok (pre ++ w :: ws)
          end
      end
  end.
Definition words_of (source : str) (ignore_sp : bool) : res (list word) :=
  words_loop (length source) ignore_sp source.
