(** What C136 says of Cache-Control values. *)
From Verif Require Import AnModel Py Num UriModel HttpModel HttpSpec HttpParamModel HttpParamSpec CrModel CrSpec CcModel.
From Coq Require Import String.
Open Scope Z_scope.

Definition latin (s : str) : Prop := Forall (fun c => c < 256) s.
Definition same_name (a b : str) : Prop := b_lower a = b_lower b.
(** v was given with the last directive of that name *)
Definition last_given (args : list (str * cvalue)) (name : str) (v : cvalue) : Prop :=
  exists a d b, args = a ++ (d, v) :: b /\ same_name d name /\ forall x, In x b -> ~ same_name (fst x) name.
(** cache-directive = token [ "=" ( token | quoted-string ) ], in words, and its name and value *)
Inductive directive_words : list word -> str * option str -> Prop :=
| dw_plain d : token d -> directive_words [WStr d] (d, None)
| dw_token d t : token d -> token t -> directive_words [WStr d; WByte 61; WStr t] (d, Some t)
| dw_quoted d q : token d -> directive_words [WStr d; WByte 61; WStr (34 :: q)] (d, Some (decode_quoted_string (34 :: q))).
(** 1#cache-directive *)
Inductive cache_words : list word -> list (str * option str) -> Prop :=
| cw_one ws x : directive_words ws x -> cache_words ws [x]
| cw_more ws x r l : directive_words ws x -> cache_words r l -> cache_words (ws ++ WByte 44 :: r) (x :: l).
(** a value and what a recipient reads: a tuple is a list of tokens in a quoted string *)
Definition reads_as (v : cvalue) (o : option str) : Prop :=
  match v, o with
  | CNone, None => True
  | CText s, Some t => t = s
  | CTuple l, Some t => exists ws, words_of t true = Ok ws /\ tokens_grammar ws l
  | _, _ => False
  end.
(** values that can be written: ASCII, not empty; tuples of tokens *)
Definition good_value (v : cvalue) : Prop :=
  match v with CNone => True | CText s => s <> [] /\ Forall (fun c => 0 <= c < 128) s | CTuple l => Forall ascii_token l end.
