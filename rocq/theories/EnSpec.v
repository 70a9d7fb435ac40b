(** What C138 says of enumerations. *)
From Verif Require Import Py UriModel.
Open Scope Z_scope.

(** the value of a name: declared, or an alias of a name *)
Inductive names (decode : list (str * Z)) (aliases : list (option str * str)) : str -> Z -> Prop :=
| nm_name n v : In (n, v) decode -> names decode aliases n v
| nm_alias n c v : In (Some n, c) aliases -> names decode aliases c v -> names decode aliases n v.
Definition alias_names (aliases : list (option str * str)) : list str := flat_map (fun x => match fst x with Some n => [n] | None => [] end) aliases.
(** no name is declared or is an alias twice *)
Definition distinct (decode : list (str * Z)) (aliases : list (option str * str)) : Prop := NoDup (map fst decode ++ alias_names aliases).
(** a name with no white space *)
Definition word (s : str) : Prop := s <> [] /\ forall c, In c s -> is_space c = false.
(** the words of a text, with white space between them and about them *)
Inductive words_of : str -> list str -> Prop :=
| wo_none sp : (forall c, In c sp -> is_space c = true) -> words_of sp []
| wo_word sp w r ws : (forall c, In c sp -> is_space c = true) -> word w -> match r with [] => True | c :: _ => is_space c = true end -> words_of r ws -> words_of (sp ++ w ++ r) (w :: ws).
