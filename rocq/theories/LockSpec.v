(** Specification of LockStore, in terms of the calls made and when they return *)
From Verif Require Import Py LockModel.

(** Reading the history [tr], oldest first: when did c last call lock(h), and does it hold h,
    that is: has a lock(h) of c returned, and c not called unlock(h) since?  If it does, [Some t]
    where t is when that lock(h) was called. *)
Fixpoint scan (c : nat) (h : str) (tr : list event) (called : Z) (held : option Z) : Z * option Z :=
  match tr with
  | nil => (called, held)
  | ELock c' h' t _ :: r =>
      if Nat.eqb c' c && str_eqb h' h then scan c h r t held else scan c h r called held
  | ELocked c' h' _ :: r =>
      if Nat.eqb c' c && str_eqb h' h then scan c h r called (Some called) else scan c h r called held
  | EUnlock c' h' _ :: r =>
      if Nat.eqb c' c && str_eqb h' h then scan c h r called None else scan c h r called held
  | _ :: r => scan c h r called held
  end.

Definition holds (tr : list event) (c : nat) (h : str) (t : Z) : Prop :=
  snd (scan c h tr 0 None) = Some t.

(** the last thing c did in the history: the call lock(h, timeout) made at time t0 *)
Definition in_lock_call (tr : list event) (c : nat) (h : str) (t0 timeout : Z) : Prop :=
  exists a b, tr = a ++ ELock c h t0 timeout :: b /\
    forall e, In e b ->
      match e with
      | ELock c' _ _ _ | ELocked c' _ _ | ELockError c' _ _ | EUnlock c' _ _
      | EUnlocked c' _ _ | EReleased c' _ _ => c' <> c
      end.

(** The steps that an execution may have to avoid. *)
Definition never (s : sys) (l : label) : bool := false.

(** the deletion at line 388, done later than lock_timeout after the lock was made or refreshed *)
Definition expired (T : Z) (s : sys) (l : label) : bool :=
  match l with
  | Run c => match s_pc s c with UDel _ e _ => e_created e + T <? s_now s | _ => false end
  | _ => false
  end.

(** the deletion at line 388, done a second or more after the time was looked at, in line 383 or
    to refresh the lock (lines 378-386 take it to be impossible in practice) *)
Definition suspended (U : Z) (s : sys) (l : label) : bool :=
  match l with
  | Run c => match s_pc s c with UDel _ _ t => t + U <=? s_now s | _ => false end
  | _ => false
  end.
