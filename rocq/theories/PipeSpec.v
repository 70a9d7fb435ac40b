(** Vocabulary for the Pipe properties, in terms of traces of events only. *)
From Verif Require Import Py PipeModel.

Definition acc_of (e : event) : str := match e with EAccept _ s => s | _ => nil end.
Definition take_of (e : event) : str := match e with ETake _ s => s | _ => nil end.
Definition disc_of (e : event) : str := match e with EDiscard s => s | _ => nil end.

(** all bytes accepted by writes / handed to readers / thrown away by close, in order *)
Definition accepted (tr : list event) : str := concat (map acc_of tr).
Definition taken (tr : list event) : str := concat (map take_of tr).
Definition discarded (tr : list event) : str := concat (map disc_of tr).

Definition called (tr : list event) (P : op -> Prop) : Prop :=
  exists t o, In (ECall t o) tr /\ P o.

Definition is_close (o : op) : Prop := o = OClose.
Definition ends_stream (o : op) : Prop := o = OClose \/ o = OWriteEof.
Definition is_readmatch (o : op) : Prop := exists m, o = OReadMatch m.
Definition empty_array_write (o : op) : Prop := o = OWrite (DArray nil).
Definition sets_nonblocking (o : op) : Prop := o = OSetReadBlocking false.

(** thread t's latest call and the bytes it moved since it made that call *)
Record pending := mkPend { pd_op : option op; pd_acc : str; pd_take : str }.
Definition pend_step (t : nat) (a : pending) (e : event) : pending :=
  match e with
  | ECall t' o => if Nat.eqb t' t then mkPend (Some o) nil nil else a
  | EAccept t' s => if Nat.eqb t' t then mkPend (pd_op a) (pd_acc a ++ s) (pd_take a) else a
  | ETake t' s => if Nat.eqb t' t then mkPend (pd_op a) (pd_acc a) (pd_take a ++ s) else a
  | _ => a
  end.
Definition pend (t : nat) (tr : list event) : pending :=
  fold_left (pend_step t) tr (mkPend None nil nil).

(** the bytes given to write *)
Definition payload (d : wdata) : str :=
  match d with DBytes b | DView b | DArray b => b | DOther => nil end.

(** [m] occurs in [s] at position [i] *)
Definition occurs_at (m s : str) (i : nat) : Prop :=
  exists a b, s = a ++ m ++ b /\ length a = i.
(** [s] ends with [m] and [m] occurs nowhere earlier in it *)
Definition ends_at_first (m s : str) : Prop :=
  occurs_at m s (length s - length m) /\ (length m <= length s)%nat /\
  forall i, occurs_at m s i -> (length s - length m <= i)%nat.

(** the value a call returns is the truth about the bytes it moved *)
Definition honest (p : pending) (v : ret) : Prop :=
  match pd_op p with
  | Some (OWrite d) =>
      pd_take p = nil /\
      match v with
      | VInt n => 0 <= n <= Z.of_nat (length (payload d)) /\
                  pd_acc p = firstn (Z.to_nat n) (payload d) /\
                  (match d with DArray _ => True | _ => n = Z.of_nat (length (payload d)) end)
      | VNone | VErr _ => pd_acc p = nil
      | _ => False
      end
  | Some (ORead n) | Some (OReadInto n) =>
      pd_acc p = nil /\
      match v with
      | VData s => pd_take p = s /\ (length s <= n)%nat
      | VNone | VErr _ => pd_take p = nil
      | _ => False
      end
  | Some (OReadMatch m) =>
      pd_acc p = nil /\
      match v with
      | VData s => pd_take p = s /\ (s = nil \/ ends_at_first m s)
      | VNone | VErr _ => pd_take p = nil
      | _ => False
      end
  | Some OReadAll =>
      pd_acc p = nil /\
      match v with
      | VData s => pd_take p = s
      | VErr ETIMEDOUT => True
      | _ => False
      end
  | Some _ => pd_acc p = nil /\ pd_take p = nil /\ forall s, v <> VData s
  | None => False
  end.

(** what a thread that has not been notified is entitled to be waiting for *)
Definition must_wait (p : pipe) (w : waiting) : Prop :=
  match w with
  | WWrite _ | WCond CanWrite _ => snd (canwrite p) = Some 0
  | WRead _ | WCond CanRead _ => unread p = nil /\ p_buf p = nil /\ p_eof p = false
  | WFlush | WCond Empty _ => empty p = false
  | WMatch m _ => p_eof p = false /\ (unread p = nil \/ forall i, ~ occurs_at m (unread p) i)
  end.

Definition is_read (o : op) : Prop :=
  match o with ORead _ | OReadInto _ | OReadAll | OReadMatch _ => True | _ => False end.
(** all read calls are made by one thread *)
Definition single_reader (tr : list event) : Prop :=
  forall t t' o o', In (ECall t o) tr -> In (ECall t' o') tr -> is_read o -> is_read o' -> t = t'.
(** a write of something else than a bytearray *)
Definition whole_write (o : op) : Prop := exists b, o = OWrite (DBytes b) \/ o = OWrite (DView b).

(** the data handed back by read, readinto, readmatch and readall calls *)
Definition ret_of (e : event) : str := match e with ERet _ (VData s) => s | _ => nil end.
Definition returned (tr : list event) : str := concat (map ret_of tr).
(** all read calls are made by thread t0 *)
Definition only_reader (t0 : nat) (tr : list event) : Prop :=
  forall t o, In (ECall t o) tr -> is_read o -> t = t0.
(** a readall call ended with a time-out *)
Definition readall_timed_out (tr : list event) : Prop :=
  exists a t b, tr = a ++ ERet t (VErr ETIMEDOUT) :: b /\ pd_op (pend t a) = Some OReadAll.
(** in the trace, after [a], a call of [o] returned normally without a value *)
Definition returned_none (tr : list event) (o : op) (a : list event) : Prop :=
  exists t c, tr = a ++ ERet t VNone :: c /\ pd_op (pend t a) = Some o.
