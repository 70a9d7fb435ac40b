(** What C88-C92 speak of: what the caller of the container sees, from the history of events (latest first). *)
From Verif Require Import SpModel.

(** the connections that were acquired and not yet released: (the thread that acquired it, the item) *)
Fixpoint remove1 (x : nat * nat) (l : list (nat * nat)) : list (nat * nat) :=
  match l with
  | [] => []
  | y :: r => if (fst x =? fst y) && (snd x =? snd y) then r else y :: remove1 x r
  end.
Fixpoint outstanding (l : list event) : list (nat * nat) :=
  match l with
  | [] => []
  | Acquired t i :: r => (t, i) :: outstanding r
  | Released _ a i :: r => remove1 (a, i) (outstanding r)
  | _ :: r => outstanding r
  end.
(** the connection of an item, as its users see it *)
Definition connection (s : st) (i : nat) : option nat := i_dbc (items (P s) i).
(** close() has removed every connection from the pool *)
Definition emptied (l : list event) : Prop := exists t, In (Swept t) l.
(** the thread t is in a call of acquire_connection; it is reconnecting *)
Definition acquiring (s : st) (t : nat) : Prop :=
  (exists b, pcs s t = WaitMod b) \/ (exists b, pcs s t = WaitConn b) \/ (exists i, pcs s t = Close0 i) \/ (exists i, pcs s t = Open0 i).
Definition reconnecting (s : st) (t : nat) : Prop := exists i, pcs s t = Reopen i.
(** the thread t is at the end of pool_cleaner or close(), and still has connections to close *)
Definition cleaning (s : st) (t : nat) : Prop := pcs s t = Finish.

Section continue.
  Variables ts0 recycle : bool.
  Variable maxc : nat.
  (** what may happen after s *)
  Inductive steps : st -> list event -> st -> Prop :=
  | steps_nil : forall s, steps s [] s
  | steps_cons : forall s l s' e s'', steps s l s' -> step ts0 recycle maxc s' e s'' -> steps s (e :: l) s''.
End continue.
