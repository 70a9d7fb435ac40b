(** Specification vocabulary for C40: product versions. *)
From Verif Require Import Py Num UriModel HttpModel HttpParamModel HttpVersionModel.

Definition nondigit (c : Z) : Prop := ~ dec_digit c /\ c <> 46.
(** a text without dots as alternate runs of digits and of other characters; the flag says which is first *)
Inductive runs : bool -> str -> list vval -> Prop :=
| r_num : forall d, d <> [] -> Forall dec_digit d -> runs true d [VInt (decimal d)]
| r_txt : forall q, q <> [] -> Forall nondigit q -> runs false q [VStr q]
| r_num_cons : forall d s l, d <> [] -> Forall dec_digit d -> runs false s l -> runs true (d ++ s) (VInt (decimal d) :: l)
| r_txt_cons : forall q s l, q <> [] -> Forall nondigit q -> runs true s l -> runs false (q ++ s) (VStr q :: l).
(** ... a tilde is added to a number that is not modified, and -1 where there is no first number *)
Definition close (l : list vval) : list vval :=
  match last l (VStr []) with VInt _ => l ++ [VStr (lit "~")] | VStr _ => l end.
Inductive item_of : str -> vitem -> Prop :=
| it_empty : item_of [] []
| it_num : forall s l, runs true s l -> item_of s (close l)
| it_txt : forall s l, runs false s l -> item_of s (VInt (-1) :: close l).
(** the parts between dots; a dot at the end does not start a part *)
Definition dot_parts (v : str) : list str :=
  let l := split_on 46 v in match last l [] with [] => removelast l | _ => l end.

(** order of lists of numbers *)
Fixpoint nums_lt (a b : list Z) : Prop :=
  match a, b with
  | _, [] => False
  | [], _ :: _ => True
  | x :: a', y :: b' => x < y \/ (x = y /\ nums_lt a' b')
  end.
Definition digits (s : str) : Prop := s <> [] /\ Forall dec_digit s.
