(** What C134 says of Accept headers that are written and read. *)
From Verif Require Import Py UriModel HttpModel HttpSpec HttpParamModel HttpParamSpec AnModel.
From Coq Require Import String.
Open Scope Z_scope.

(** items that can be written: tokens, good parameters, none of the range called "q" *)
Definition quality_ok (q : Z) : Prop := 0 <= q <= 1000.
Definition item_ok (a : aitem) : Prop :=
  ascii_token (mt_type (arange a)) /\ ascii_token (mt_subtype (arange a)) /\ good_params (mt_params (arange a)) /\ ~ In (lit "q") (map fst (mt_params (arange a))) /\
  quality_ok (aq a) /\ good_params (aext a).
Definition token_ok (t : atok) : Prop := ascii_token (token t) /\ quality_ok (tq t).
(** the same item, but for the case of the type and the order of the parameters *)
Definition same_range (m m' : mediatype) : Prop :=
  mt_type m' = b_lower (mt_type m) /\ mt_subtype m' = b_lower (mt_subtype m) /\ same_map (mt_params m') (mt_params m).
Definition same_item (a b : aitem) : Prop := same_range (arange a) (arange b) /\ aq b = aq a /\ same_map (aext b) (aext a).
(** a q-value, as in RFC 2616, 3.9: "0", "1", "0.375" *)
Definition digit_of (n : Z) : Z := 48 + n.
Inductive qtext : Z -> str -> Prop :=
| q_one : qtext 1000 (lit "1")
| q_zero : qtext 0 (lit "0")
| q_tenths a : 0 < a < 10 -> qtext (100 * a) (lit "0." ++ [digit_of a])
| q_hundredths a b : 0 <= a < 10 -> 0 < b < 10 -> qtext (100 * a + 10 * b) (lit "0." ++ [digit_of a; digit_of b])
| q_thousandths a b c : 0 <= a < 10 -> 0 <= b < 10 -> 0 < c < 10 -> qtext (100 * a + 10 * b + c) (lit "0." ++ [digit_of a; digit_of b; digit_of c]).
