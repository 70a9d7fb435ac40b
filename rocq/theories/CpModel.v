(* The connection pool of the HTTP client: pyslet/http/client.py 1231-1306
   (queue_request), 1320-1387 (moving connections between the tables),
   1410-1462 (thread_task), 1486-1553 (clean-up, close), with 377-394, 426-440
   and 666-695 of Connection.

   A transition system: each block under managerLock, up to its end or its
   wait, is a step; so is each request that a connection finishes.  Threads,
   connections, targets (scheme, host, port) and requests are numbers.

   Simplified: what happens on the network is nondeterministic (see HcModel
   for the connections themselves): a connection finishes any of its requests
   at any time.  A request that a connection retries stays on it.  The ages
   of connections are left out: the clean-ups choose any connections, an idle
   connection is taken in any order.  cIdleTargets is computed from cIdleList
   (they are changed together), cActiveThreads is a set of pairs (an inner
   dictionary left empty is as none).  Threads do not call thread_task inside
   of thread_task, identifiers of threads are not reused, an upgraded
   connection has no further requests queued, _new_connection does not fail.
   Condition.notify wakes the longest waiter; a wait may time out at any
   time. *)
From Coq Require Import List Bool Arith.
Import ListNotations.

Notation thread := nat (only parsing).
Notation conn := nat (only parsing).
Notation target := nat (only parsing).
Notation req := nat (only parsing).

(* what can be seen from outside: thread T's request r was put on connection
   c; it was finished while T was processing c; it was refused with
   RequestManagerBusy; active_cleanup raised KeyError *)
Inductive event :=
| EQueued (T : thread) (g : target) (r : req) (c : conn)
| EFinished (T : thread) (c : conn) (r : req)
| EBusy (T : thread) (r : req)
| EKeyError (T : thread).

(* client.py 1116-1158: Client; 128-180: the attributes of Connection used here *)
Record pool := Pool {
  nextid : nat;                               (* nextId *)
  tgt : conn -> target;                       (* scheme, host, port of a connection *)
  owner : conn -> option thread;              (* thread_id *)
  dead : conn -> bool;                        (* closed *)
  load : conn -> list (thread * req);         (* requests, with the thread that queued them *)
  act : list ((thread * target) * conn);      (* cActiveThreadTargets *)
  ath : list (thread * conn);                 (* cActiveThreads *)
  idle : list conn;                           (* cIdleList *)
  waiting : list (thread * (target * req));   (* waiting for managerLock, longest first *)
  woken : list (thread * (target * req));     (* notified or timed out, not yet resumed *)
  held : list (thread * conn);                (* connections of thread_task's list, not yet done *)
  doomed : list (thread * conn);              (* clist of active_cleanup *)
  closing : bool;
  log : list event                            (* newest first *)
}.

Definition start : pool :=
  Pool 0 (fun _ => 0) (fun _ => None) (fun _ => false) (fun _ => []) [] [] [] [] [] [] [] false [].

Definition upd {A} (f : nat -> A) (n : nat) (a : A) : nat -> A := fun m => if m =? n then a else f m.
Definition keq (a b : nat * nat) : bool := (fst a =? fst b) && (snd a =? snd b).
(* dictionaries *)
Fixpoint look (k : nat * nat) (l : list ((nat * nat) * nat)) : option nat :=
  match l with [] => None | (k', c) :: l' => if keq k k' then Some c else look k l' end.
Definition unkey (k : nat * nat) (l : list ((nat * nat) * nat)) := filter (fun x => negb (keq k (fst x))) l.
Definition unpair (p : nat * nat) (l : list (nat * nat)) := filter (fun x => negb (keq p x)) l.
Definition without (c : nat) (l : list nat) := filter (fun x => negb (x =? c)) l.

Definition set_tables (o : conn -> option thread) a t i (s : pool) : pool :=
  Pool (nextid s) (tgt s) o (dead s) (load s) a t i (waiting s) (woken s) (held s) (doomed s) (closing s) (log s).
Definition set_wait w k (s : pool) : pool :=
  Pool (nextid s) (tgt s) (owner s) (dead s) (load s) (act s) (ath s) (idle s) w k (held s) (doomed s) (closing s) (log s).
Definition set_held h (s : pool) : pool :=
  Pool (nextid s) (tgt s) (owner s) (dead s) (load s) (act s) (ath s) (idle s) (waiting s) (woken s) h (doomed s) (closing s) (log s).
Definition set_dead d m (s : pool) : pool :=
  Pool (nextid s) (tgt s) (owner s) d (load s) (act s) (ath s) (idle s) (waiting s) (woken s) (held s) m (closing s) (log s).
Definition set_load f e (s : pool) : pool :=
  Pool (nextid s) (tgt s) (owner s) (dead s) f (act s) (ath s) (idle s) (waiting s) (woken s) (held s) (doomed s) (closing s) (e :: log s).
Definition set_log e (s : pool) : pool := set_load (load s) e s.
Definition set_closing (s : pool) : pool :=
  Pool (nextid s) (tgt s) (owner s) (dead s) (load s) (act s) (ath s) (idle s) (waiting s) (woken s) (held s) (doomed s) true (log s).

(* client.py 1320-1335: _activate_connection *)
Definition activate (c : conn) (T : thread) (s : pool) : pool :=
  set_tables (upd (owner s) c (Some T)) (((T, tgt s c), c) :: unkey (T, tgt s c) (act s))
    ((T, c) :: unpair (T, c) (ath s)) (without c (idle s)) s.

(* Condition.notify(n): move the first n waiters *)
Definition notify (n : nat) (s : pool) : pool :=
  set_wait (skipn n (waiting s)) (woken s ++ firstn n (waiting s)) s.

(* client.py 1337-1360: _deactivate_connection; thread_id is not None when
   it is called *)
Definition deactivate (c : conn) (T : thread) (s : pool) : pool :=
  let o := upd (owner s) c None in
  let t := unpair (T, c) (ath s) in
  match look (T, tgt s c) (act s) with
  | Some _ => notify 1 (set_tables o (unkey (T, tgt s c) (act s)) t (c :: without c (idle s)) s)
  | None => set_tables o (act s) t (idle s) s
  end.

(* client.py 1362-1378: _upgrade_connection *)
Definition upgrade (c : conn) (T : thread) (s : pool) : pool :=
  set_tables (upd (owner s) c None) (unkey (T, tgt s c) (act s)) (unpair (T, c) (ath s)) (idle s) s.

(* client.py 1380-1387: _delete_idle_connection; 1396-1408, 128-132: a new
   connection *)
Definition delete_idle (c : conn) (s : pool) : pool :=
  set_tables (owner s) (act s) (ath s) (without c (idle s)) s.
Definition new_connection (g : target) (s : pool) : pool :=
  Pool (S (nextid s)) (upd (tgt s) (nextid s) g) (owner s) (dead s) (load s) (act s) (ath s) (idle s)
    (waiting s) (woken s) (held s) (doomed s) (closing s) (log s).

(* client.py 1308-1311: active_count *)
Definition active_count (s : pool) : nat := length (act s).

Section Model.
Variable max : nat.                       (* max_connections *)

(* client.py 1261-1285: steps 1 to 4 of queue_request's loop, up to break *)
Inductive take (T : thread) (g : target) : pool -> conn -> pool -> Prop :=
| tk_active s c : look (T, g) (act s) = Some c -> take T g s c s
| tk_idle s c : look (T, g) (act s) = None -> In c (idle s) -> tgt s c = g ->
    take T g s c (activate c T s)
| tk_new s : look (T, g) (act s) = None -> (forall c, In c (idle s) -> tgt s c <> g) ->
    length (act s) + length (idle s) < max ->
    take T g s (nextid s) (activate (nextid s) T (new_connection g s))
| tk_drop s d c s' : look (T, g) (act s) = None -> (forall c, In c (idle s) -> tgt s c <> g) ->
    max <= length (act s) + length (idle s) -> In d (idle s) ->
    take T g (delete_idle d s) c s' -> take T g s c s'.
(* client.py 1286-1303: step 5 *)
Definition blocked (T : thread) (g : target) (s : pool) : Prop :=
  look (T, g) (act s) = None /\ idle s = [] /\ max <= length (act s).

(* the thread is not inside of queue_request's wait *)
Definition free (T : thread) (s : pool) : Prop :=
  ~ In T (map fst (waiting s)) /\ ~ In T (map fst (woken s)).

(* client.py 1304-1306 and 195-196: the request is added to the connection *)
Definition enqueue (T : thread) (g : target) (r : req) (c : conn) (s : pool) : pool :=
  set_load (upd (load s) c (load s c ++ [(T, r)])) (EQueued T g r c) s.

(* client.py 1522-1531: active_cleanup's loop over the connections chosen;
   true: KeyError *)
Fixpoint cleanup (sel : list (thread * conn)) (s : pool) : pool * bool :=
  match sel with
  | [] => (s, false)
  | (T, c) :: sel' =>
      let t := unpair (T, c) (ath s) in
      match owner s c with
      | Some U =>
          match look (U, tgt s c) (act s) with
          | Some _ => cleanup sel' (set_tables (owner s) (unkey (U, tgt s c) (act s)) t (idle s) s)
          | None => (set_tables (owner s) (act s) t (idle s) s, true)
          end
      | None => (set_tables (owner s) (act s) t (idle s) s, true)
      end
  end.
(* client.py 1507-1535: active_cleanup up to the release of managerLock *)
Definition active_cleanup (K : thread) (sel : list (thread * conn)) (s : pool) : pool :=
  match cleanup sel s with
  | (s', true) => set_log (EKeyError K) s'
  | (s', false) =>
      let s1 := notify (length sel) s' in
      set_dead (dead s1) (map (fun x => (K, snd x)) sel ++ doomed s1) s1
  end.

(* the steps *)
Inductive label :=
| LQueue (T : thread) (g : target) (r : req)     (* queue_request, without waiting *)
| LBusy (T : thread) (g : target) (r : req)      (* RequestManagerBusy at once *)
| LWait (T : thread) (g : target) (r : req)
| LTimeout (T : thread)                          (* wait() returns without notify *)
| LResume (T : thread)
| LAgain (T : thread)                            (* waits again *)
| LGiveUp (T : thread)                           (* RequestManagerBusy *)
| LTask (T : thread)                             (* thread_task copies its list *)
| LFinish (T : thread) (c : conn) (r : req)
| LIdle (T : thread) (c : conn)                  (* connection_task, nothing to do *)
| LLeave (T : thread) (c : conn)                 (* connection_task returns *)
| LUpgrade (T : thread) (c : conn) (r : req)
| LClean (K : thread) (sel : list (thread * conn))
| LKill (K : thread) (c : conn) (b : bool)
| LIdleClean (K : thread) (sel : list conn)
| LClose (K : thread).

Inductive step : label -> pool -> pool -> Prop :=
(* client.py 1252-1306 *)
| st_queue T g r c s s' : free T s -> closing s = false -> take T g s c s' ->
    step (LQueue T g r) s (enqueue T g r c s')
| st_busy T g r s : free T s -> closing s = false -> blocked T g s ->
    step (LBusy T g r) s (set_log (EBusy T r) s)
| st_wait T g r s : free T s -> closing s = false -> blocked T g s ->
    step (LWait T g r) s (set_wait (waiting s ++ [(T, (g, r))]) (woken s) s)
| st_timeout T x l1 l2 s : waiting s = l1 ++ (T, x) :: l2 ->
    step (LTimeout T) s (set_wait (l1 ++ l2) (woken s ++ [(T, x)]) s)
(* the loop is entered again after the wait *)
| st_resume T g r c l1 l2 s s' : woken s = l1 ++ (T, (g, r)) :: l2 -> take T g s c s' ->
    step (LResume T) s (enqueue T g r c (set_wait (waiting s') (l1 ++ l2) s'))
| st_again T g r l1 l2 s : woken s = l1 ++ (T, (g, r)) :: l2 -> blocked T g s ->
    step (LAgain T) s (set_wait (waiting s ++ [(T, (g, r))]) (l1 ++ l2) s)
| st_giveup T g r l1 l2 s : woken s = l1 ++ (T, (g, r)) :: l2 -> blocked T g s ->
    step (LGiveUp T) s (set_log (EBusy T r) (set_wait (waiting s) (l1 ++ l2) s))
(* client.py 1423-1426 *)
| st_task T s : free T s -> (forall c, ~ In (T, c) (held s)) ->
    step (LTask T) s (set_held (filter (fun x => fst x =? T) (ath s) ++ held s) s)
(* a request of the connection is finished while its thread processes it *)
| st_finish T c U r l1 l2 s : free T s -> In (T, c) (held s) -> load s c = l1 ++ (U, r) :: l2 ->
    step (LFinish T c r) s (set_load (upd (load s) c (l1 ++ l2)) (EFinished T c r) s)
(* client.py 380-394 *)
| st_idle T c s : free T s -> In (T, c) (held s) -> load s c = [] ->
    step (LIdle T c) s (set_held (unpair (T, c) (held s)) (deactivate c T s))
| st_leave T c s : free T s -> In (T, c) (held s) ->
    step (LLeave T c) s (set_held (unpair (T, c) (held s)) s)
(* client.py 426-440 *)
| st_upgrade T c U r s : free T s -> In (T, c) (held s) -> load s c = [(U, r)] ->
    step (LUpgrade T c r) s
      (set_load (upd (load s) c []) (EFinished T c r) (set_held (unpair (T, c) (held s)) (upgrade c T s)))
| st_clean K sel s : free K s -> NoDup sel -> incl sel (ath s) ->
    step (LClean K sel) s (active_cleanup K sel s)
(* client.py 666-695, 1536-1540: kill; it does nothing without a socket *)
| st_kill K c b l1 l2 s : doomed s = l1 ++ (K, c) :: l2 ->
    step (LKill K c b) s (set_dead (upd (dead s) c (dead s c || b)) (l1 ++ l2) s)
(* client.py 1486-1505: idle_cleanup; close() of an idle connection does not
   use the manager *)
| st_idleclean K sel s : free K s -> incl sel (idle s) ->
    step (LIdleClean K sel) s (fold_right delete_idle s sel)
(* client.py 1542-1549: close sets the flag; then it repeats the clean-ups *)
| st_close K s : free K s -> step (LClose K) s (set_closing s).

(* runs from a state, of the steps that the condition allows *)
Inductive run (ok : label -> pool -> Prop) (s0 : pool) : pool -> Prop :=
| run_start : run ok s0 s0
| run_step l s s' : run ok s0 s -> ok l s -> step l s s' -> run ok s0 s'.
End Model.
