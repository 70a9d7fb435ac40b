(** Specification for StreamStore *)
From Verif Require Import Py SstModel.

(** no call is in progress *)
Definition quiescent (s : sys) : Prop := forall c, s_pc s c = Idle.

(** all executions *)
Definition any (s : sys) (l : label) : Prop := True.

(** the stream that a call works on *)
Definition stream_of (o : op) : nat :=
  match o with
  | OStore st _ _ | OUpdate st _ _ _ | ODelete st _ | ODeleteStream st => st
  end.
Definition working_on (p : pc) : option nat :=
  match p with
  | Idle => None
  | SIns st _ _ | SLock st _ _ | SStore st _ _ | SUnlock st _ _
  | U1 st _ _ _ | U2 st _ _ _ | U3 st _ _ _ | U4 st _ _ _ | U5 st _ _ _ | U6 st _ _ _
  | U7 st _ _ _ _ | U8 st _ _ _
  | D0 st _ _ | D1 st _ _ | D2 st _ _ _ _ | D3 st _ _ _ _ | D4 st _ _ _ _ | D5 st _ _ _ _ _
  | D6 st => Some st
  end.

(** Each stream is used by one client at a time: a call on a stream is made only when no other
    call on it is in progress, and update_block is called with a block entity that is up to
    date. *)
Definition one_user (s : sys) (l : label) : Prop :=
  match l with
  | Call c o =>
      (forall c', c' <> c -> working_on (s_pc s c') <> Some (stream_of o)) /\
      match o with
      | OUpdate st id old new => exists n, s_refs s id = Some (mkRef st n old)
      | _ => True
      end
  | _ => True
  end.

(** a reference to the block with key h *)
Definition refers (s : sys) (h : str) : Prop := exists id r, s_refs s id = Some r /\ r_hash r = h.
