(** Model of SQLTransaction, pyslet/odata2/sqlds.py lines 220-247 (retry_decorator) and 250-385.

    The outcome of each call of the database (cursor, execute, commit, open) is taken from a stream: Done, OperationalError,
    another exception.  A command that fails and a commit that fails have no effect; rollback succeeds on a live connection
    (so databases without rollback, 345-358, are left out) and cursor.close does not fail.  A connection that is not live
    (closed, not yet reopened) raises an exception for every call.  [log]: the commands that execute returned normally for. *)
From Coq Require Export List Arith Bool Lia.
Export ListNotations.

Inductive res := Done | Operational | Other.
Definition is_done (r : res) : bool := match r with Done => true | _ => false end.
(** 290-298: cursor (is it not None?), no_commit, query_count; the database: committed, pending (not yet committed), live *)
Record st := mkT { cursor : bool; no_commit : nat; query_count : nat; committed : list nat; pending : list nat; live : bool;
                   log : list nat; outcomes : nat -> res; pos : nat }.
Definition set_tx c n q s := mkT c n q (committed s) (pending s) (live s) (log s) (outcomes s) (pos s).
Definition set_db c p l s := mkT (cursor s) (no_commit s) (query_count s) c p l (log s) (outcomes s) (pos s).
Definition logged c s := mkT (cursor s) (no_commit s) (query_count s) (committed s) (pending s) (live s) (log s ++ [c]) (outcomes s) (pos s).
(** the database is called *)
Definition call (s : st) : st * res :=
  (mkT (cursor s) (no_commit s) (query_count s) (committed s) (pending s) (live s) (log s) (outcomes s) (S (pos s)),
   if live s then outcomes s (pos s) else Other).

(** 300-309 [begin], without the decorator *)
Definition begin0 (s : st) : st * res :=
  if cursor s then (set_tx true (S (no_commit s)) (query_count s) s, Done)
  else let (s, r) := call s in if is_done r then (set_tx true (no_commit s) (query_count s) s, Done) else (s, r).
(** 311-323 [execute], without the decorator *)
Definition execute0 (c : nat) (s : st) : st * res :=
  let (s, r) := call s in
  if is_done r then (logged c (set_tx (cursor s) (no_commit s) (S (query_count s)) (set_db (committed s) (pending s ++ [c]) (live s) s)), Done)
  else (s, r).
(** 241-245, container.close_connection and container.open *)
Definition reconnect (s : st) : st * res :=
  let s := set_db (committed s) [] false s in
  let r := outcomes s (pos s) in
  let s := mkT (cursor s) (no_commit s) (query_count s) (committed s) (pending s) (is_done r) (log s) (outcomes s) (S (pos s)) in
  if is_done r then (if cursor s then call s else (s, Done)) else (s, r).
(** 223-246 *)
Fixpoint attempts (strikes : nat) (f : st -> st * res) (s : st) : st * res :=
  match f s with
  | (s', Operational) =>
    match strikes with
    | S n => match reconnect s' with (s'', Done) => attempts n f s'' | (s'', r) => (s'', r) end
    | O => (s', Operational)
    end
  | x => x
  end.
Definition retry (f : st -> st * res) (s : st) : st * res := if query_count s =? 0 then attempts 2 f s else f s.
Definition begin_ (s : st) : st * res := retry begin0 s.
Definition execute (c : nat) (s : st) : st * res := retry (execute0 c) s.
(** 325-331 *)
Definition commit (s : st) : st * res :=
  if no_commit s =? 0 then let (s, r) := call s in if is_done r then (set_db (committed s ++ pending s) [] (live s) s, Done) else (s, r)
  else (s, Done).
(** 333-372, with an exception that is not swallowed *)
Definition rollback (s : st) : st := if (no_commit s =? 0) && live s then set_db (committed s) [] true s else s.
(** 374-385 *)
Definition close (s : st) : st :=
  match no_commit s with
  | S n => set_tx (cursor s) n (query_count s) s
  | O => if cursor s then set_tx false 0 0 s else s
  end.

(** Methods that follow the pattern of 263-275; [Catch p q]: try p except: q *)
Inductive prog := Skip | Execute (c : nat) | Fail | Seq (p q : prog) | Catch (p q : prog) | Method (p : prog).
(** the state, and whether an exception was raised *)
Fixpoint exec (p : prog) (s : st) : st * bool :=
  match p with
  | Skip => (s, false)
  | Fail => (s, true)
  | Execute c => let (s, r) := execute c s in (s, negb (is_done r))
  | Seq p q => match exec p s with (s, false) => exec q s | x => x end
  | Catch p q => match exec p s with (s, true) => exec q s | x => x end
  | Method p =>
    match begin_ s with
    | (s, Done) =>
      match exec p s with
      | (s, false) => match commit s with (s, Done) => (close s, false) | (s, _) => (close (rollback s), true) end
      | (s, true) => (close (rollback s), true)
      end
    | (s, _) => (close (rollback s), true)
    end
  end.
