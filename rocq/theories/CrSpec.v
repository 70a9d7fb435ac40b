(** What C135 says of Content-Range, Accept-Ranges and Allow. *)
From Verif Require Import AnModel Py Num UriModel HttpModel HttpSpec HttpParamModel HttpParamSpec CrModel.
From Coq Require Import String Permutation.
Open Scope Z_scope.

(** a range that the class can make and the grammar can write: bytes f to l, or no range (416), of an entity of n bytes *)
Definition number_ok (n : option Z) : Prop := match n with Some n => 0 <= n | None => True end.
Definition range_ok (r : crange) : Prop :=
  match cr_first r, cr_last r with Some f, Some l => 0 <= f /\ 0 <= l | None, None => True | _, _ => False end /\ number_ok (cr_total r).
(** the positions of a range *)
Definition in_range (r : crange) (i : Z) : Prop := match cr_first r, cr_last r with Some f, Some l => f <= i <= l | _, _ => False end.
Definition in_entity (r : crange) (i : Z) : Prop := 0 <= i /\ match cr_total r with Some n => i < n | None => True end.
(** bytes-unit SP ( first "-" last | "*" ) "/" ( length | "*" ), in words *)
Definition number_word (w : str) (n : Z) : Prop := w <> [] /\ Forall dec_digit w /\ n = decimal w.
Definition spec_word (w : str) (f l : option Z) : Prop :=
  w = star /\ f = None /\ l = None \/ exists a b m n, w = a ++ 45 :: b /\ number_word a m /\ number_word b n /\ f = Some m /\ l = Some n.
Definition total_word (w : str) (t : option Z) : Prop := w = star /\ t = None \/ exists n, number_word w n /\ t = Some n.
(** tokens, with any number of commas before, between and after *)
Inductive tokens_grammar : list word -> list str -> Prop :=
| tg_end : tokens_grammar [] []
| tg_comma r l : tokens_grammar r l -> tokens_grammar (WByte 44 :: r) l
| tg_token t r l : token t -> Forall (fun c => c < 128) t -> tokens_grammar r l -> tokens_grammar (WStr t :: r) (t :: l).
