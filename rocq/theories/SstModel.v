(** Model of StreamStore's block operations, pyslet/blockstore.py lines 540-614: store_block,
    update_block, delete_blocks and delete_stream, by any number of clients at the same time.

    Simplifications.  A block of data is represented by its hash key (the block store is
    addressed by content, see FbsModel.v for what storing and deleting a block does).  Each use
    of the table of block references, of the block store and of a lock is one atomic step.
    Locks are those of LockModel.v, taken to exclude: one that is held is not given to another
    client (c34_exclusive_partial says when that is so). *)
From Verif Require Import Py.

Definition str_dec : forall a b : str, {a = b} + {a <> b} := list_eq_dec Z.eq_dec.

(** a row of the table of blocks: its stream, its number in the stream, its hash key *)
Record ref := mkRef { r_stream : nat; r_num : Z; r_hash : str }.

Inductive pc :=
| Idle
(* store_block *)
| SIns (st : nat) (num : Z) (k : str)                    (* lines 551-556 *)
| SLock (st id : nat) (k : str)                          (* line 558 *)
| SStore (st id : nat) (k : str)                         (* line 559 *)
| SUnlock (st id : nat) (k : str)                        (* end of 558 *)
(* update_block of the reference id, from hash key old to hash key new *)
| U1 (st id : nat) (old new : str)                       (* line 573: lock old *)
| U2 (st id : nat) (old new : str)                       (* line 574: lock new *)
| U3 (st id : nat) (old new : str)                       (* line 575 *)
| U4 (st id : nat) (old new : str)                       (* lines 576-577 *)
| U5 (st id : nat) (old new : str)                       (* lines 579-581 *)
| U6 (st id : nat) (old new : str)                       (* line 583 *)
| U7 (st id : nat) (old new : str) (ok : bool)           (* end of 574: unlock new *)
| U8 (st id : nat) (old : str) (ok : bool)               (* end of 573: unlock old *)
(* delete_blocks, and delete_stream if [all] *)
| D0 (st : nat) (from : Z) (all : bool)                  (* line 596 *)
| D1 (st : nat) (todo : list (nat * str)) (all : bool)   (* lines 603-607: lock *)
| D2 (st id : nat) (h : str) (todo : list (nat * str)) (all : bool)   (* line 608 *)
| D3 (st id : nat) (h : str) (todo : list (nat * str)) (all : bool)   (* lines 610-612 *)
| D4 (st id : nat) (h : str) (todo : list (nat * str)) (all : bool)   (* line 614 *)
| D5 (st id : nat) (h : str) (todo : list (nat * str)) (all ok : bool)   (* end of 607: unlock *)
| D6 (st : nat).                                         (* line 547, delete_stream *)

Inductive event :=
| EDone (c : nat)                (* a call by c returns *)
| EKeyError (c : nat)            (* ... raises KeyError *)
| ELockError (c : nat) (created : option nat).
    (* ... raises LockError; in store_block, having created that reference *)

Inductive op :=
| OStore (st : nat) (num : Z) (k : str)
| OUpdate (st id : nat) (old new : str)
    (* on a block entity of the stream st with key id, read when its hash was old *)
| ODelete (st : nat) (from : Z)
| ODeleteStream (st : nat).

Inductive label :=
| Call (c : nat) (o : op)
| Run (c : nat)
| Err (c : nat).                 (* the lock c is waiting for times out *)

Record sys := mkSys {
  s_refs : nat -> option ref;    (* the table of blocks *)
  s_next : nat;                  (* automatically generated keys start here *)
  s_store : str -> bool;         (* is a block in the block store? *)
  s_lock : str -> option nat;    (* who has the lock? *)
  s_pc : nat -> pc }.

Definition rset (f : nat -> option ref) (i : nat) (v : option ref) : nat -> option ref :=
  fun j => if Nat.eqb j i then v else f j.
Definition bset (f : str -> bool) (h : str) (v : bool) : str -> bool :=
  fun h' => if str_dec h' h then v else f h'.
Definition lset (f : str -> option nat) (h : str) (v : option nat) : str -> option nat :=
  fun h' => if str_dec h' h then v else f h'.
Definition pset (f : nat -> pc) (c : nat) (v : pc) : nat -> pc :=
  fun c' => if Nat.eqb c' c then v else f c'.

(** lines 579-581, 610-612: is the hash key used anywhere? *)
Definition used (refs : nat -> option ref) (next : nat) (h : str) : bool :=
  existsb (fun i => match refs i with Some r => str_eqb (r_hash r) h | None => false end) (seq 0 next).

(** lines 596, 604: the blocks of a stream from a number on (in the order of their keys, not of
    their numbers) *)
Definition blocklist (refs : nat -> option ref) (next : nat) (st : nat) (from : Z) : list (nat * str) :=
  flat_map (fun i => match refs i with
    | Some r => if Nat.eqb (r_stream r) st && negb (negb (from =? 0) && (r_num r <? from))
                then [(i, r_hash r)] else nil
    | None => nil end) (seq 0 next).

(** line 547: deleting the stream deletes what is left of its blocks *)
Definition drop_stream (refs : nat -> option ref) (st : nat) : nat -> option ref :=
  fun i => match refs i with
    | Some r => if Nat.eqb (r_stream r) st then None else Some r
    | None => None
    end.

(** the start of a call; lines 563-566 for update_block *)
Definition start (o : op) : pc :=
  match o with
  | OStore st num k => SIns st num k
  | OUpdate st id old new => if str_eqb new old then Idle else U1 st id old new
  | ODelete st from => D0 st from false
  | ODeleteStream st => D0 st 0 true
  end.

Definition setpc (s : sys) (c : nat) (p : pc) : sys :=
  mkSys (s_refs s) (s_next s) (s_store s) (s_lock s) (pset (s_pc s) c p).
Definition acquire (s : sys) (c : nat) (h : str) (p : pc) : option (sys * list event) :=
  match s_lock s h with
  | None => Some (mkSys (s_refs s) (s_next s) (s_store s) (lset (s_lock s) h (Some c)) (pset (s_pc s) c p), nil)
  | Some _ => None
  end.
Definition release (s : sys) (c : nat) (h : str) (p : pc) (ev : list event) : option (sys * list event) :=
  Some (mkSys (s_refs s) (s_next s) (s_store s) (lset (s_lock s) h None) (pset (s_pc s) c p), ev).
Definition setstore (s : sys) (c : nat) (h : str) (v : bool) (p : pc) : option (sys * list event) :=
  Some (mkSys (s_refs s) (s_next s) (bset (s_store s) h v) (s_lock s) (pset (s_pc s) c p), nil).

(** the next block of delete_blocks, or its end *)
Definition next_block (s : sys) (c st : nat) (todo : list (nat * str)) (all : bool)
  : option (sys * list event) :=
  match todo with
  | (id, h) :: r => acquire s c h (D2 st id h r all)
  | nil => if all then Some (setpc s c (D6 st), nil) else Some (setpc s c Idle, [EDone c])
  end.

Definition run1 (s : sys) (c : nat) : option (sys * list event) :=
  match s_pc s c with
  | Idle => None
  | SIns st num k =>
      Some (mkSys (rset (s_refs s) (s_next s) (Some (mkRef st num k))) (S (s_next s))
                  (s_store s) (s_lock s) (pset (s_pc s) c (SLock st (s_next s) k)), nil)
  | SLock st id k => acquire s c k (SStore st id k)
  | SStore st id k => setstore s c k true (SUnlock st id k)
  | SUnlock st id k => release s c k Idle [EDone c]
  | U1 st id old new => acquire s c old (U2 st id old new)
  | U2 st id old new => acquire s c new (U3 st id old new)
  | U3 st id old new => setstore s c new true (U4 st id old new)
  | U4 st id old new =>
      match s_refs s id with
      | Some r => Some (mkSys (rset (s_refs s) id (Some (mkRef (r_stream r) (r_num r) new)))
                              (s_next s) (s_store s) (s_lock s)
                              (pset (s_pc s) c (U5 st id old new)), nil)
      | None => Some (setpc s c (U7 st id old new false), nil)
      end
  | U5 st id old new =>
      Some (setpc s c (if used (s_refs s) (s_next s) old then U7 st id old new true
                       else U6 st id old new), nil)
  | U6 st id old new => setstore s c old false (U7 st id old new true)
  | U7 st id old new ok => release s c new (U8 st id old ok) nil
  | U8 st id old ok => release s c old Idle [if ok then EDone c else EKeyError c]
  | D0 st from all => Some (setpc s c (D1 st (blocklist (s_refs s) (s_next s) st from) all), nil)
  | D1 st todo all => next_block s c st todo all
  | D2 st id h todo all =>
      match s_refs s id with
      | Some _ => Some (mkSys (rset (s_refs s) id None) (s_next s) (s_store s) (s_lock s)
                              (pset (s_pc s) c (D3 st id h todo all)), nil)
      | None => Some (setpc s c (D5 st id h todo all false), nil)
      end
  | D3 st id h todo all =>
      Some (setpc s c (if used (s_refs s) (s_next s) h then D5 st id h todo all true
                       else D4 st id h todo all), nil)
  | D4 st id h todo all => setstore s c h false (D5 st id h todo all true)
  | D5 st id h todo all ok =>
      if ok then release s c h (D1 st todo all) nil
      else release s c h Idle [EKeyError c]
  | D6 st => Some (mkSys (drop_stream (s_refs s) st) (s_next s) (s_store s) (s_lock s)
                         (pset (s_pc s) c Idle), [EDone c])
  end.

(** lock() raises LockError: a lock already taken by the call is released on the way out *)
Definition fail1 (s : sys) (c : nat) : option (sys * list event) :=
  match s_pc s c with
  | SLock st id k => Some (setpc s c Idle, [ELockError c (Some id)])
  | U1 st id old new => Some (setpc s c Idle, [ELockError c None])
  | U2 st id old new => release s c old Idle [ELockError c None]
  | D1 st (_ :: _) all => Some (setpc s c Idle, [ELockError c None])
  | _ => None
  end.

Definition step (s : sys) (l : label) : option (sys * list event) :=
  match l with
  | Call c o =>
      match s_pc s c with
      | Idle => Some (setpc s c (start o),
                      match start o with Idle => [EDone c] | _ => nil end)
      | _ => None
      end
  | Run c => run1 s c
  | Err c => fail1 s c
  end.

Definition init : sys := mkSys (fun _ => None) 0 (fun _ => false) (fun _ => None) (fun _ => Idle).

(** all executions in which every step is [ok] *)
Inductive run (ok : sys -> label -> Prop) : list event -> sys -> Prop :=
| run_nil : run ok nil init
| run_step : forall tr s l s' ev,
    run ok tr s -> step s l = Some (s', ev) -> ok s l -> run ok (tr ++ ev) s'.

Fixpoint exec (s : sys) (ls : list label) : option (sys * list event) :=
  match ls with
  | nil => Some (s, nil)
  | l :: r =>
      match step s l with
      | None => None
      | Some (s1, e1) =>
          match exec s1 r with Some (s2, e2) => Some (s2, e1 ++ e2) | None => None end
      end
  end.
