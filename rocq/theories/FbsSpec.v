(** Vocabulary for the block store properties: traces of calls, returns and removals. *)
From Verif Require Import Py FbsModel.

(** [m] has no call and no return of client [c] *)
Definition quiet (c : nat) (m : list event) : Prop :=
  forall e, In e m -> match e with ECall c' _ | ERet c' _ => c' <> c | ERemoved _ => True end.

(** in the trace, client [c] called [o], and that call returned [v] after the events [m];
    [b] is what happened since *)
Definition completed (tr : list event) (c : nat) (o : op) (m : list event) (v : ret) (b : list event) : Prop :=
  exists a, tr = a ++ ECall c o :: m ++ ERet c v :: b /\ quiet c m.
