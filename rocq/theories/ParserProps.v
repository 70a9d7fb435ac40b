(** Properties C07-C09 and C42 (BasicParser, pyslet/unicode5.py).  [reachable lower s p]: some
    program using the API takes a new parser on source [s] to state [p] (ParserSpec.v). *)
From Verif Require Import Py ParserModel ParserSpec ParserMain.

(** ** C07 *)
(** the current character is the character at the position, None outside the source *)
Theorem c07_current_char : forall lower s p, reachable lower s p -> src p = s /\
  the_char p = (if (0 <=? pos p) && (pos p <? Z.of_nat (length s)) then nth_error s (Z.to_nat (pos p)) else None).
Proof. exact c07_char. Qed.
Print Assumptions c07_current_char.

(** match_*, peek and match_end never change the parser *)
Theorem c07_match_pure : forall lower o p, pure_op o = true -> exists v, do_op lower o p = (Ret v, p).
Proof. exact c07_pure. Qed.
Print Assumptions c07_match_pure.

(** parse_*: on None nothing changes, otherwise the parser moves over exactly the text returned.
    [lower] must preserve lengths, as bytes.lower does; see the refutation below. *)
Theorem c07_lookahead : forall lower s p o, reachable lower s p -> parse_op o = true -> op_ok o ->
  (forall x, length (lower x) = length x) ->
  exists v p', do_op lower o p = (Ret v, p') /\ last_error p' = last_error p /\
    (v = VNone /\ p' = p \/
     exists t, stands_for v t /\ text_at s (pos p) t /\ pos p' = pos p + Z.of_nat (length t)).
Proof. exact c07_parse. Qed.
Print Assumptions c07_lookahead.

(** parse_production of any method [m]: the result of [m], or None with the parser rewound *)
Theorem c07_parse_production : forall lower s p m, reachable lower s p ->
  match exec lower m p with
  | (Ret v, p') => parse_production (exec lower m) p = (Ret (Some v), p')
  | (Raise _, p') => exists p'', parse_production (exec lower m) p = (Ret None, p'') /\
      pos p'' = pos p /\ the_char p'' = the_char p /\ src p'' = src p
  end.
Proof. exact c07_production. Qed.
Print Assumptions c07_parse_production.

(** a program that looks ahead twice, fails, and parses: state and results *)
Definition lower0 (s : str) : str := map (fun c => if (65 <=? c) && (c <=? 90) then c + 32 else c) s.
Definition sample_prog : prog :=
  PTry (PCall (ORequire (lit "ab") None) (fun _ => PCall (ORequire (lit "x") None) PRet)) (fun _ =>
  PCall (OParse (lit "ab")) (fun _ => PCall (OParseInteger None (Some 99) (Some 2)) PRet)).
Example c07_reachable : exists p, reachable lower0 (lit "ab1234") p /\ pos p = 4 /\
  (exists e, last_error p = Some e /\ e_pos e = 2) /\ forall x, length (lower0 x) = length x.
Proof.
  eexists. split; [exists sample_prog; eexists; vm_compute; reflexivity|]. split; [reflexivity|].
  split; [eexists; split; reflexivity|]. intros x. apply map_length.
Qed.

(** Finding: in text mode lower-casing can change the length: on the one-character source U+0130
    parse_insensitive("i\u0307") returns one character but moves the parser to position 2. *)
Theorem c07_parse_insensitive_refuted :
  let lower := flat_map (fun c => if c =? 304 then [105; 775] else [c]) in
  exists p', parse_insensitive lower [105; 775] (new_parser [304]) = (Ret (Some [304]), p') /\ pos p' = 2.
Proof. eexists. split; reflexivity. Qed.
Print Assumptions c07_parse_insensitive_refuted.

(** Finding: require("") raises ParserError although the empty string is matched. *)
Theorem c07_require_empty_refuted : exists e p',
  match_ [] (new_parser (lit "a")) = (Ret true, new_parser (lit "a")) /\
  require [] None (new_parser (lit "a")) = (Raise (EParser e), p').
Proof. do 2 eexists. split; reflexivity. Qed.
Print Assumptions c07_require_empty_refuted.

(** ** C08 *)
Theorem c08_parse_digits : forall lower s p min max,
  reachable lower s p -> 0 <= pos p <= Z.of_nat (length s) -> bounds_ok min max ->
  exists t, longest_run digit s (pos p) max t /\
    ((Z.of_nat (length t) < min /\ parse_digits min max p = (Ret None, p)) \/
     (min <= Z.of_nat (length t) /\ exists p', parse_digits min max p = (Ret (Some t), p') /\
        pos p' = pos p + Z.of_nat (length t))).
Proof. exact c08_digits. Qed.
Print Assumptions c08_parse_digits.

Theorem c08_parse_hex_digits : forall lower s p min max,
  reachable lower s p -> 0 <= pos p <= Z.of_nat (length s) -> bounds_ok min max ->
  exists t, longest_run hexdigit s (pos p) max t /\
    ((Z.of_nat (length t) < min /\ parse_hex_digits min max p = (Ret None, p)) \/
     (min <= Z.of_nat (length t) /\ exists p', parse_hex_digits min max p = (Ret (Some t), p') /\
        pos p' = pos p + Z.of_nat (length t))).
Proof. exact c08_hex. Qed.
Print Assumptions c08_parse_hex_digits.

Theorem c08_parse_integer : forall lower s p min max md,
  reachable lower s p -> 0 <= pos p <= Z.of_nat (length s) -> bounds_ok min max -> bounds_ok 1 md ->
  exists t, longest_run digit s (pos p) md t /\
    if negb (str_eqb t []) && (min <=? decimal t) &&
       match max with Some m => decimal t <=? m | None => true end
    then exists p', parse_integer (Some min) max md p = (Ret (Some (decimal t)), p') /\
        pos p' = pos p + Z.of_nat (length t)
    else parse_integer (Some min) max md p = (Ret None, p).
Proof. exact c08_integer. Qed.
Print Assumptions c08_parse_integer.
Example c08_sample : bounds_ok 1 (Some 12) /\ bounds_ok 1 (Some 2) /\
  fst (parse_integer (Some 1) (Some 12) (Some 2) (new_parser (lit "1234"))) = Ret (Some 12) /\
  fst (parse_integer (Some 1) (Some 12) (Some 2) (new_parser (lit "1334"))) = Ret None.
Proof. unfold bounds_ok. repeat split; intros; try lia; inversion H; lia. Qed.

(** ** C09: [raised p] is the list of the errors that parser_error has raised so far. *)
Theorem c09_most_advanced_error : forall lower s p, reachable lower s p ->
  exists e p', @parser_error unit None p = (Raise (EParser e), p') /\ pos p' = e_pos e /\
    the_char p' = char_at s (e_pos e) /\
    ((In e (raised p) /\ pos p <= e_pos e /\ forall e', In e' (raised p) -> e_pos e' <= e_pos e) \/
     (e = mke [] (pos p) /\ forall e', In e' (raised p) -> e_pos e' < pos p)).
Proof. exact c09. Qed.
Print Assumptions c09_most_advanced_error.
Theorem c09_named_error : forall c n lower s p, reachable lower s p ->
  exists p', @parser_error unit (Some (c :: n)) p = (Raise (EParser (mke (c :: n) (pos p))), p') /\
    pos p' = pos p /\ the_char p' = the_char p.
Proof. exact c09_named. Qed.
Print Assumptions c09_named_error.
Example c09_sample : exists p, reachable lower0 (lit "abc") p /\ pos p = 0 /\ raised p <> [] /\
  exists e p', @parser_error unit None p = (Raise (EParser e), p') /\ e = mke (lit "x") 2 /\ pos p' = 2.
Proof.
  eexists. split; [exists (PTry (PCall (ORequire (lit "ab") None) (fun _ => PCall (ORequire (lit "x") None) PRet))
    (fun _ => PRet VNone)); eexists; vm_compute; reflexivity|].
  split; [reflexivity|]. split; [discriminate|]. do 2 eexists. split; [reflexivity|]. split; reflexivity.
Qed.

(** ** C42 *)
Theorem c42_parse_until : forall lower s p m, reachable lower s p -> 0 <= pos p <= Z.of_nat (length s) ->
  exists t p', parse_until (Some m) p = (Ret t, p') /\ text_at s (pos p) t /\
    pos p' = pos p + Z.of_nat (length t) /\
    ((occurs_at m s (Z.to_nat (pos p')) /\
      forall k, (Z.to_nat (pos p) <= k < Z.to_nat (pos p'))%nat -> ~ occurs_at m s k) \/
     (pos p' = Z.of_nat (length s) /\ forall k, (Z.to_nat (pos p) <= k)%nat -> ~ occurs_at m s k)).
Proof. exact c42. Qed.
Print Assumptions c42_parse_until.
