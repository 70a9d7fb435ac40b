(** Specification of the paging of SQL collections. *)
From Coq Require Import Sorting Permutation.
From Verif Require Import Py SqlPageModel.

(** a table as the database keeps it: the key columns are never NULL and tell the rows apart; here, no order expression
    is NULL either *)
Definition good_row (k : config) (r : row) : Prop :=
  length (r_vals r) = length (orderby k) /\ length (r_key r) = nkeys k /\ ~ In VNull (r_vals r) /\ ~ In VNull (r_key r).
Definition good_table (k : config) (t : list row) : Prop := Forall (good_row k) t /\ NoDup (map r_key t).
(** there is a key, and a direction is 1 or -1 *)
Definition good_config (k : config) : Prop := (0 < nkeys k)%nat /\ Forall (fun d => d = 1 \/ d = -1) (orderby k).
(** no row needs a token of more than 512 characters *)
Definition short_tokens (t : list row) : Prop := Forall (fun r => tokenlen (r_ord r) <= 512) t.

(** the order that was asked for: the first column that differs decides *)
Definition below (a b : val) : Prop :=
  match a, b with
  | VNull, VNull => False | VNull, _ => True | _, VNull => False
  | VInt m, VInt n => m < n | VInt _, VStr _ => True | VStr _, VInt _ => False
  | VStr s, VStr t => exists p, (exists x t', s = p /\ t = p ++ x :: t') \/ (exists x y s' t', s = p ++ x :: s' /\ t = p ++ y :: t' /\ x < y)
  end.
Fixpoint comes_before (names : list Z) (a b : list val) : Prop :=
  match names, a, b with
  | d :: names, x :: a, y :: b => (if d <? 0 then below y x else below x y) \/ (x = y /\ comes_before names a b)
  | _, _, _ => False
  end.
Definition row_before (k : config) (a b : row) : Prop := comes_before (orderby k ++ repeat 1 (nkeys k)) (r_vals a ++ r_key a) (r_vals b ++ r_key b).
(** the rows in that order *)
Definition in_order (k : config) (t l : list row) : Prop := Permutation t l /\ StronglySorted (row_before k) l.

(** what the user asked for *)
Definition start (c : coll) : nat := Z.to_nat (match skip c with Some s => s | None => 0 end).
Definition page_size (c : coll) : option nat :=
  match top c, topmax c with
  | None, None => None
  | Some t, None => Some (Z.to_nat t)
  | None, Some m => Some (Z.to_nat m)
  | Some t, Some m => Some (Nat.min (Z.to_nat t) (Z.to_nat m))
  end.
Definition at_most {V} (n : option nat) (l : list V) : list V := match n with Some n => firstn n l | None => l end.
Definition fresh_page (c : coll) : Prop :=
  tok c = None /\ (forall s, skip c = Some s -> 0 <= s) /\ (forall t, top c = Some t -> 0 < t) /\ (forall m, topmax c = Some m -> 0 < m).
(** not a case of OFFSET without LIMIT *)
Definition can_skip (k : config) (c : coll) : Prop := sqlite k = true -> start c = O \/ page_size c <> None.
