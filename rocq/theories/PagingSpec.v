(** Specification of paging and ordering. *)
From Coq Require Import Sorting.
From Verif Require Import Py PagingModel.

(** What the user asked for: the position of the first entity, and the most entities on a page *)
Definition start (c : coll) : nat := Z.to_nat (match skip c with Some s => s | None => 0 end).
Definition page_size (c : coll) : option nat :=
  match top c, topmax c with
  | None, None => None
  | Some t, None => Some (Z.to_nat t)
  | None, Some m => Some (Z.to_nat m)
  | Some t, Some m => Some (Nat.min (Z.to_nat t) (Z.to_nat m))
  end.
Definition at_most {V} (n : option nat) (l : list V) : list V := match n with Some n => firstn n l | None => l end.
(** set_page was called with a positive top (or None), a skip that is not negative (or None), and no skiptoken *)
Definition fresh_page (c : coll) : Prop :=
  token c = None /\ (forall s, skip c = Some s -> 0 <= s) /\ (forall t, top c = Some t -> 0 < t) /\ (forall m, topmax c = Some m -> 0 < m).

(** The order that orderby asks for: the first rule that tells two entities apart decides *)
Fixpoint before_by (dirs : list Z) (x y : list (option Z)) (tie : Prop) : Prop :=
  match dirs, x, y with
  | d :: dirs, Some a :: x, Some b :: y => (if d <? 0 then b < a else a < b) \/ (a = b /\ before_by dirs x y tie)
  | _, _, _ => tie
  end.
(** with equal values, in the order of the keys *)
Definition ordered (dirs : list Z) (a b : entity) : Prop := before_by dirs (e_vals a) (e_vals b) (e_key a < e_key b).
(** the values of all order expressions are numbers *)
Definition no_nulls (dirs : list Z) (l : list entity) : Prop :=
  forall e, In e l -> length (e_vals e) = length dirs /\ Forall (fun v => v <> None) (e_vals e).
