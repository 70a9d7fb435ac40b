(** What C137 says of the integers and decimals of XML Schema. *)
From Verif Require Import Py Num XdModel.
From Coq Require Import String.
Open Scope Z_scope.

Definition sign_of (sg : str) (g : Z) : Prop := sg = [] /\ g = 1 \/ sg = [43] /\ g = 1 \/ sg = [45] /\ g = -1.
(** digits, and a sign before them if any *)
Definition integer_word (s : str) (n : Z) : Prop :=
  exists sg g a, sign_of sg g /\ s = sg ++ a /\ a <> [] /\ Forall dec_digit a /\ n = g * decimal a.
(** digits, a point among them, before them or after them if any, and a sign before if any; it is n / 10^k *)
Definition decimal_word (s : str) (n : Z) (k : nat) : Prop :=
  exists sg g a b, sign_of sg g /\ (s = sg ++ a /\ b = [] \/ s = sg ++ a ++ 46 :: b) /\ a ++ b <> [] /\ Forall dec_digit (a ++ b) /\ n = g * decimal (a ++ b) /\ k = List.length b.
(** i with at most 15 digits that are not zeros at the end, the nearest such number, the larger one if there are two *)
Definition rounded (i r : Z) : Prop :=
  i < 10 ^ 15 /\ r = i \/
  exists p, 0 < p /\ 10 ^ (14 + p) <= i < 10 ^ (15 + p) /\ (exists q, r = q * 10 ^ p) /\ 2 * r - 10 ^ p <= 2 * i < 2 * r + 10 ^ p.
(** no zeros at the start but before the point *)
Definition whole_part (a : str) : Prop := a <> [] /\ Forall dec_digit a /\ (hd 0 a = 48 -> a = [48]).
(** no zeros at the end but after the point *)
Definition fraction_part (b : str) : Prop := b <> [] /\ Forall dec_digit b /\ (b = [48] \/ exists c d, b = c ++ [d] /\ d <> 48).
