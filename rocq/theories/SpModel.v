(** Model of the pool of database connections of SQLEntityContainer, pyslet/odata2/sqlds.py lines 4033-4064, 4621-4767,
    4799-4849, 4882-4959, and of the reconnection in retry_decorator, 220-247.

    Concurrency.  The tables of the pool are only used inside [with self.cpool_lock], a threading.Condition; the lock is
    given up only in [wait] and at the end of the block.  So a schedule is a sequence of atomic steps of threads: a block
    up to its end or to a wait; a wait that is over and what follows it; and, outside of the lock, each opening and each
    closing of a connection.  A waiting thread resumes only after a notify that chose it (notify chooses the one that has
    waited longest), or because it waits with a time-out.  The clock is not modelled: [expired] is the outcome of the test
    now > start + timeout, [old i] of last_seen <= old_time; every timing is covered.  The identifiers of threads are not
    reused.  A thread dies only outside of the methods.  A call of open that raises an exception is a step; the exceptions
    of close_connection and break_connection are left out, as is the special case of SQLite databases in memory.

    [ts0]: threadsafety is 0; [recycle]: it is more than 1; [maxc]: max_connections. *)
From Coq Require Export List Arith Bool Lia Permutation.
Export ListNotations.

(** 4050-4064 [SQLConnection]: thread (and thread_id), locked, dbc *)
Record item := mkI { i_thread : option nat; i_locked : nat; i_dbc : option nat }.
(** The attributes of the container, 4133-4182: items are the SQLConnection objects that were made so far, by number;
    cpool_locked and cpool_unlocked are dictionaries from threads *)
Record pool := mkP { items : nat -> item; next : nat; locked : list (nat * nat); unlocked : list (nat * nat);
                     idle : list nat; size : nat }.

Definition upd {A} (f : nat -> A) (k : nat) (v : A) : nat -> A := fun x => if x =? k then v else f x.
Fixpoint lookup (t : nat) (d : list (nat * nat)) : option nat :=
  match d with [] => None | (k, v) :: r => if k =? t then Some v else lookup t r end.
Definition del (t : nat) (d : list (nat * nat)) : list (nat * nat) := filter (fun x => negb (fst x =? t)) d.
(** d[t] = i *)
Definition put (t i : nat) (d : list (nat * nat)) : list (nat * nat) := (t, i) :: del t d.
Definition set_thread (o : option nat) (x : item) : item := mkI o (i_locked x) (i_dbc x).
Definition set_dbc (o : option nat) (x : item) : item := mkI (i_thread x) (i_locked x) o.
(** 4644, 4691: locked += 1; 4717, 4735: locked -= 1 *)
Definition inc (x : item) : item := mkI (i_thread x) (S (i_locked x)) (i_dbc x).
Definition dec (x : item) : item := mkI (i_thread x) (pred (i_locked x)) (i_dbc x).
Definition on_item (i : nat) (f : item -> item) (p : pool) : pool :=
  mkP (upd (items p) i (f (items p i))) (next p) (locked p) (unlocked p) (idle p) (size p).
(** an element that k chooses *)
Definition pick {A} (k : nat) (l : list A) : option A := match l with [] => None | _ => nth_error l (k mod length l) end.

Section pool.
  Variables ts0 recycle : bool.
  Variable maxc : nat.
  (** 4162-4169 *)
  Definition cpool_max : nat := if ts0 then 1 else maxc.

  (** 4691-4695 *)
  Definition lock_item (t i : nat) (p : pool) : pool :=
    let p := on_item i (fun x => set_thread (Some t) (inc x)) p in
    mkP (items p) (next p) (put t i (locked p)) (unlocked p) (idle p) (size p).
  (** 4647-4676, one turn of the loop of acquire_connection: the item and whether its connection is to be closed *)
  Definition take (t k : nat) (p : pool) : option (nat * bool * pool) :=
    match lookup t (unlocked p) with
    | Some i => Some (i, false, lock_item t i (mkP (items p) (next p) (locked p) (del t (unlocked p)) (idle p) (size p)))
    | None =>
      match idle p with
      | _ :: _ => let i := last (idle p) 0 in
                  Some (i, false, lock_item t i (mkP (items p) (next p) (locked p) (unlocked p) (removelast (idle p)) (size p)))
      | [] =>
        if size p <? cpool_max then
          let i := next p in
          Some (i, false, lock_item t i (mkP (upd (items p) i (mkI None 0 None)) (S i) (locked p) (unlocked p) (idle p) (S (size p))))
        else
          match pick k (unlocked p) with
          | Some (o, i) => Some (i, negb recycle, lock_item t i (mkP (items p) (next p) (locked p) (del o (unlocked p)) (idle p) (size p)))
          | None => None
          end
      end
    end.
  (** 4717-4722, 4735-4740: the item i, locked for the thread b; whether to notify *)
  Definition unlock (b i : nat) (p : pool) : pool * bool :=
    let p := on_item i dec p in
    if i_locked (items p i) =? 0 then
      let owner := match i_thread (items p i) with Some o => o | None => b end in
      (mkP (items p) (next p) (del b (locked p)) (put owner i (unlocked p)) (idle p) (size p), true)
    else (p, false).
  (** 4713-4733: for which thread is the item locked that the thread t releases? *)
  Definition locked_for (t i : nat) (p : pool) : option nat :=
    match lookup t (locked p) with
    | Some j => if j =? i then Some t else match find (fun x => snd x =? i) (locked p) with Some (b, _) => Some b | None => None end
    | None => match find (fun x => snd x =? i) (locked p) with Some (b, _) => Some b | None => None end
    end.
  Definition dbcs (p : pool) (l : list nat) : list nat :=
    flat_map (fun i => match i_dbc (items p i) with Some d => [d] | None => [] end) l.
  (** 4799-4846 [pool_cleaner]: the pool and the connections to close.  An unlocked connection whose thread is dead moves to
      the idle pool; from there it may be removed at once *)
  Definition clean_locked (alive : nat -> bool) (p : pool) : pool * list nat :=
    let dead x := match i_thread (items p (snd x)) with Some t => negb (alive t) | None => false end in
    (mkP (items p) (next p) (filter (fun x => negb (dead x)) (locked p)) (unlocked p) (idle p) (size p),
     dbcs p (map snd (filter dead (locked p)))).
  Definition clean_unlocked1 (alive : nat -> bool) (old : nat -> bool) (x : nat * nat) (a : pool * list nat) : pool * list nat :=
    let (p, c) := a in
    let i := snd x in
    if match i_thread (items p i) with Some t => negb (alive t) | None => false end then
      let p := on_item i (set_thread None) p in
      (mkP (items p) (next p) (locked p) (del (fst x) (unlocked p)) (idle p ++ [i]) (size p), c)
    else if old i && negb recycle then
      (mkP (items p) (next p) (locked p) (del (fst x) (unlocked p)) (idle p) (pred (size p)), c ++ dbcs p [i])
    else (p, c).
  Definition clean_idle1 (old : nat -> bool) (i : nat) (a : pool * list nat) : pool * list nat :=
    let (p, c) := a in
    if old i then (mkP (items p) (next p) (locked p) (unlocked p) (filter (fun j => negb (j =? i)) (idle p)) (pred (size p)), c ++ dbcs p [i])
    else (p, c).
  Definition clean (alive old : nat -> bool) (p : pool) : pool * list nat :=
    let a := clean_locked alive p in
    let a := fold_left (fun a x => clean_unlocked1 alive old x a) (unlocked (fst a)) a in
    fold_left (fun a i => clean_idle1 old i a) (idle (fst a)) a.
  (** 4909-4934, close(): one turn of the loop up to the wait *)
  Definition sweep (t : nat) (alive : nat -> bool) (p : pool) : pool * list nat :=
    let gone x := match i_thread (items p (snd x)) with Some o => (o =? t) || negb (alive o) | None => false end in
    (mkP (items p) (next p) (filter (fun x => negb (gone x)) (locked p)) [] [] (size p),
     dbcs p (idle p ++ map snd (unlocked p) ++ map snd (filter gone (locked p)))).
  (** 4948-4954 *)
  Definition force (p : pool) : pool * list nat :=
    (mkP (items p) (next p) [] (unlocked p) (idle p) (size p), dbcs p (map snd (locked p))).
End pool.

(** What a thread is doing: outside of the pool; in acquire_connection: waiting at 4633 or 4686 ([tmo]: a timeout was given),
    about to close (4698) or to open (4701) the connection of an item; reconnecting (242); in close(): at the start of the
    block, waiting at 4945; closing the connections that it removed (4847, 4956) *)
Inductive pc := Out | WaitMod (tmo : bool) | WaitConn (tmo : bool) | Close0 (i : nat) | Open0 (i : nat) | Reopen (i : nat)
              | Closing | CWait (tmo : bool) (nlocked : nat) | Finish.
(** opened: the connections that are open at the database; fresh: a number for the next one; modl: the module lock (an RLock
    if ts0); handles: (t, i) for each call of acquire_connection in the thread t that returned the item i and was not yet
    released; waits: the threads in wait, in order; woken: those that a notify chose; pend: what threads have still to close *)
Record st := mkS { P : pool; opened : list nat; fresh : nat; closing : bool; modl : option (nat * nat); alive : nat -> bool;
                   pcs : nat -> pc; handles : list (nat * nat); waits : list nat; woken : list nat; pend : list (nat * nat) }.
Definition init : st := mkS (mkP (fun _ => mkI None 0 None) 0 [] [] [] 0) [] 0 false None (fun _ => true) (fun _ => Out) [] [] [] [].

Definition set_P p s := mkS p (opened s) (fresh s) (closing s) (modl s) (alive s) (pcs s) (handles s) (waits s) (woken s) (pend s).
Definition set_mod m s := mkS (P s) (opened s) (fresh s) (closing s) m (alive s) (pcs s) (handles s) (waits s) (woken s) (pend s).
Definition set_pc t c s := mkS (P s) (opened s) (fresh s) (closing s) (modl s) (alive s) (upd (pcs s) t c) (handles s) (waits s) (woken s) (pend s).
Definition set_handles h s := mkS (P s) (opened s) (fresh s) (closing s) (modl s) (alive s) (pcs s) h (waits s) (woken s) (pend s).
Definition set_waits w v s := mkS (P s) (opened s) (fresh s) (closing s) (modl s) (alive s) (pcs s) (handles s) w v (pend s).
Definition set_open o f s := mkS (P s) o f (closing s) (modl s) (alive s) (pcs s) (handles s) (waits s) (woken s) (pend s).
Definition set_pend d s := mkS (P s) (opened s) (fresh s) (closing s) (modl s) (alive s) (pcs s) (handles s) (waits s) (woken s) d.
Definition set_closing s := mkS (P s) (opened s) (fresh s) true (modl s) (alive s) (pcs s) (handles s) (waits s) (woken s) (pend s).
Definition set_dead t s := mkS (P s) (opened s) (fresh s) (closing s) (modl s) (upd (alive s) t false) (pcs s) (handles s) (waits s) (woken s) (pend s).
Definition remove_one (x : nat * nat) (l : list (nat * nat)) : list (nat * nat) :=
  (fix go l := match l with [] => [] | y :: r => if (fst x =? fst y) && (snd x =? snd y) then r else y :: go r end) l.
Definition shut (d : nat) (s : st) : st := set_open (filter (fun e => negb (e =? d)) (opened s)) (fresh s) s.
(** Condition.notify *)
Definition notify (s : st) : st := match waits s with [] => s | t :: r => set_waits r (woken s ++ [t]) s end.

(** what is seen of a step: a call of acquire_connection returns the item i, returns None or raises an exception; a call of
    release_connection returns or raises RuntimeError; a reconnection raises an exception; the thread t dies; close() has
    emptied the pool *)
Inductive event := Acquired (t i : nat) | NoneAcquired (t : nat) | AcquireRaises (t : nat) | Released (t a i : nat)
                 | ReleaseRaises (t : nat) | RetryRaises (t : nat) | Dies (t : nat) | Swept (t : nat) | Quiet.

Section system.
  Variables ts0 recycle : bool.
  Variable maxc : nat.
  (** module_lock.acquire(False) and release(), by the thread t; DummyLock, 4033-4047 *)
  Definition mod_acquire (t : nat) (s : st) : option st :=
    if ts0 then
      match modl s with
      | None => Some (set_mod (Some (t, 1)) s)
      | Some (o, n) => if o =? t then Some (set_mod (Some (o, S n)) s) else None
      end
    else Some s.
  Definition mod_release (t : nat) (s : st) : option st :=
    if ts0 then
      match modl s with
      | Some (o, S (S n)) => if o =? t then Some (set_mod (Some (o, S n)) s) else None
      | Some (o, _) => if o =? t then Some (set_mod None s) else None
      | None => None
      end
    else Some s.
  Definition wait (t : nat) (c : pc) (s : st) : st := set_pc t c (set_waits (waits s ++ [t]) (woken s) s).
  (** 4696-4702 *)
  Definition got (t i : nat) (close_flag : bool) (s : st) : st * event :=
    if close_flag then (set_pc t (Close0 i) s, Quiet)
    else match i_dbc (items (P s) i) with
         | None => (set_pc t (Open0 i) s, Quiet)
         | Some _ => (set_pc t Out (set_handles ((t, i) :: handles s) s), Acquired t i)
         end.
  (** 4646-4695 from a turn of the loop on *)
  Definition search (t k : nat) (tmo expired : bool) (s : st) : st * event :=
    match take ts0 recycle maxc t k (P s) with
    | Some (i, close_flag, p) => got t i close_flag (set_P p s)
    | None => if tmo && expired then
                (set_pc t Out (match mod_release t s with Some s => s | None => s end), NoneAcquired t)
              else (wait t (WaitConn tmo) s, Quiet)
    end.
  (** 4632-4645 *)
  Definition enter (t k : nat) (tmo expired : bool) (s : st) : st * event :=
    match mod_acquire t s with
    | None => (wait t (WaitMod tmo) s, Quiet)
    | Some s =>
      match lookup t (locked (P s)) with
      | Some i => got t i false (set_P (on_item i inc (P s)) s)
      | None => search t k tmo expired s
      end
    end.
  (** 4628-4631 *)
  Definition acquire (t k : nat) (tmo expired : bool) (s : st) : st * event :=
    if closing s then (s, NoneAcquired t) else enter t k tmo expired s.
  (** 4633-4639 when the wait is over *)
  Definition resume_mod (t k : nat) (tmo expired expired2 : bool) (s : st) : st * event :=
    if tmo && expired then (set_pc t Out s, NoneAcquired t) else enter t k tmo expired2 s.
  (** 4708-4767 [release_connection] by the thread t of the item i that the thread a acquired *)
  Definition release (t a i : nat) (s : st) : st * event :=
    match locked_for t i (P s) with
    | Some b =>
      match mod_release t s with
      | None => (s, ReleaseRaises t)
      | Some s =>
        let (p, n) := unlock b i (P s) in
        let s := set_P p (set_handles (remove_one (a, i) (handles s)) s) in
        (if n then notify s else s, Released t a i)
      end
    | None =>
      let s := set_handles (remove_one (a, i) (handles s)) s in
      if existsb (Nat.eqb i) (idle (P s)) then
        let p := P s in
        let s := set_P (mkP (items p) (next p) (locked p) (unlocked p) (filter (fun j => negb (j =? i)) (idle p)) (pred (size p))) s in
        (match i_dbc (items p i) with Some d => shut d s | None => s end, Released t a i)
      else (s, Released t a i)
    end.
  (** 4909-4954, close(), from the start of a turn of the loop on *)
  Definition close_turn (t : nat) (tmo : bool) (nlocked : option nat) (s : st) : st * event :=
    let (p, c) := sweep t (alive s) (P s) in
    let s := set_pend (pend s ++ map (pair t) c) (set_P p s) in
    if (0 <? length (locked p)) && (match nlocked with None => true | Some n => length (locked p) <? n end) then
      (wait t (CWait tmo (length (locked p))) s, Quiet)
    else
      let (p, c) := force p in
      (set_pc t Finish (set_pend (pend s ++ map (pair t) c) (set_P p s)), Swept t).

  Inductive step : st -> event -> st -> Prop :=
  | s_acquire : forall s t k tmo expired, alive s t = true -> pcs s t = Out ->
      step s (snd (acquire t k tmo expired s)) (fst (acquire t k tmo expired s))
  | s_notified_mod : forall s t l r k tmo e e', pcs s t = WaitMod tmo -> woken s = l ++ t :: r ->
      let x := resume_mod t k tmo e e' (set_waits (waits s) (l ++ r) s) in step s (snd x) (fst x)
  | s_timeout_mod : forall s t l r k e e', pcs s t = WaitMod true -> waits s = l ++ t :: r ->
      let x := resume_mod t k true e e' (set_waits (l ++ r) (woken s) s) in step s (snd x) (fst x)
  | s_notified_conn : forall s t l r k tmo e, pcs s t = WaitConn tmo -> woken s = l ++ t :: r ->
      let x := search t k tmo e (set_waits (waits s) (l ++ r) s) in step s (snd x) (fst x)
  | s_timeout_conn : forall s t l r k e, pcs s t = WaitConn true -> waits s = l ++ t :: r ->
      let x := search t k true e (set_waits (l ++ r) (woken s) s) in step s (snd x) (fst x)
  (** 4697-4699 *)
  | s_close0 : forall s t i, pcs s t = Close0 i ->
      step s Quiet (set_pc t (Open0 i) (set_P (on_item i (set_dbc None) (P s)) (match i_dbc (items (P s) i) with Some d => shut d s | None => s end)))
  (** 4700-4702 *)
  | s_open : forall s t i, pcs s t = Open0 i ->
      step s (Acquired t i) (set_pc t Out (set_handles ((t, i) :: handles s) (set_P (on_item i (set_dbc (Some (fresh s))) (P s)) (set_open (fresh s :: opened s) (S (fresh s)) s))))
  | s_open_raises : forall s t i, pcs s t = Open0 i -> step s (AcquireRaises t) (set_pc t Out s)
  (** any thread may release what was acquired, but not while the thread that acquired it is reconnecting it *)
  | s_release : forall s t a i, alive s t = true -> pcs s t = Out -> In (a, i) (handles s) -> pcs s a <> Reopen i ->
      step s (snd (release t a i s)) (fst (release t a i s))
  (** 241, 242 *)
  | s_retry : forall s t i d, alive s t = true -> pcs s t = Out -> In (t, i) (handles s) -> i_dbc (items (P s) i) = Some d ->
      step s Quiet (set_pc t (Reopen i) (shut d s))
  | s_reopen : forall s t i, pcs s t = Reopen i ->
      step s Quiet (set_pc t Out (set_P (on_item i (set_dbc (Some (fresh s))) (P s)) (set_open (fresh s :: opened s) (S (fresh s)) s)))
  | s_reopen_raises : forall s t i, pcs s t = Reopen i -> step s (RetryRaises t) (set_pc t Out s)
  | s_dies : forall s t, alive s t = true -> pcs s t = Out -> step s (Dies t) (set_dead t s)
  | s_clean : forall s t old, alive s t = true -> pcs s t = Out ->
      step s Quiet (set_pc t Finish (set_pend (pend s ++ map (pair t) (snd (clean recycle (alive s) old (P s)))) (set_P (fst (clean recycle (alive s) old (P s))) s)))
  | s_finish : forall s t d, pcs s t = Finish -> In (t, d) (pend s) -> step s Quiet (shut d (set_pend (remove_one (t, d) (pend s)) s))
  | s_finished : forall s t, pcs s t = Finish -> (forall d, ~ In (t, d) (pend s)) -> step s Quiet (set_pc t Out s)
  (** 4905-4907 *)
  | s_closing : forall s t, alive s t = true -> pcs s t = Out -> step s Quiet (set_pc t Closing (set_closing s))
  | s_close : forall s t tmo, pcs s t = Closing ->
      let x := close_turn t tmo None s in step s (snd x) (fst x)
  | s_close_notified : forall s t l r tmo n, pcs s t = CWait tmo n -> woken s = l ++ t :: r ->
      let x := close_turn t tmo (Some n) (set_waits (waits s) (l ++ r) s) in step s (snd x) (fst x)
  | s_close_timeout : forall s t l r n, pcs s t = CWait true n -> waits s = l ++ t :: r ->
      let x := close_turn t true (Some n) (set_waits (l ++ r) (woken s) s) in step s (snd x) (fst x).

  (** the runs of the system, with what was seen, latest first, and all events satisfying E *)
  Inductive run (E : event -> Prop) : list event -> st -> Prop :=
  | run_init : run E [] init
  | run_step : forall l s e s', run E l s -> step s e s' -> E e -> run E (e :: l) s'.
End system.
