(** What C139 says of normalised paths. *)
From Verif Require Import Py UriModel.
From Coq Require Import String.
Open Scope Z_scope.

(** where one is after the components cs, from st, the last component first: up from the root is the root,
    up from the start of a relative path, or from a dot-dot, is one more dot-dot *)
Fixpoint walk (abs : bool) (st : list str) (cs : list str) : list str :=
  match cs with
  | [] => st
  | c :: r =>
      if str_eqb c [] || str_eqb c (lit ".") then walk abs st r
      else if str_eqb c (lit "..") then
        match st with
        | [] => if abs then walk abs [] r else walk abs [c] r
        | t :: s => if str_eqb t (lit "..") then walk abs (c :: st) r else walk abs s r
        end
      else walk abs (c :: st) r
  end.
(** the text of what is left *)
Definition tidy (p : str) : str :=
  match p with
  | 47 :: _ => 47 :: join_on 47 (rev (walk true [] (split_on 47 p)))
  | _ => match rev (walk false [] (split_on 47 p)) with [] => lit "." | l => join_on 47 l end
  end.
(** a name that can be in a directory *)
Definition name (c : str) : Prop := c <> [] /\ c <> lit "." /\ c <> lit ".." /\ ~ In 47 c.
(** what a path leads to from a directory; a place is the names from it up to the root, whose parent is the root *)
Fixpoint resolve (at_ : list str) (cs : list str) : list str :=
  match cs with
  | [] => at_
  | c :: r => if str_eqb c [] || str_eqb c (lit ".") then resolve at_ r else if str_eqb c (lit "..") then resolve (tl at_) r else resolve (c :: at_) r
  end.
Definition place (cwd : list str) (p : str) : list str := resolve (match p with 47 :: _ => [] | _ => cwd end) (split_on 47 p).
Definition no_double (p : str) : Prop := forall a b, p <> a ++ 47 :: 47 :: b.
