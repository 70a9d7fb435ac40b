(** Model of LockStore.lock and LockStore.unlock, pyslet/blockstore.py lines 302-344 and 372-400, for any
    number of clients (an owner is one thread of one process, lines 302 and 372) sharing a
    clock and one entity set of locks.  Between two uses of the clock or the entity set any
    amount of time may pass and any other client may run. *)
From Verif Require Import Py.

Definition str_dec : forall a b : str, {a = b} + {a <> b} := list_eq_dec Z.eq_dec.

Record entry := mkEnt { e_owner : nat; e_created : Z }.

(** what a client is about to do *)
Inductive pc :=
| Idle
| LStamp (h : str) (tnow tstop : Z)            (* lines 309-312, after time.sleep(twait) *)
| LTok (h : str) (tnow tstop v : Z)            (* line 314: the start of insert_entity *)
| LIns (h : str) (tnow tstop v : Z)            (* line 314: the INSERT *)
| LRead (h : str) (tnow tstop : Z)             (* line 319 *)
| LSteal (h : str) (tnow tstop : Z) (e : entry)  (* line 331: the start of update_entity *)
| LUpd (h : str) (tnow tstop : Z) (e : entry) (v : Z)   (* line 331: the UPDATE *)
| LNext (h : str) (tstop : Z)                  (* lines 323, 337 or 342, then 307 *)
| URead (h : str)                              (* line 375 *)
| UCheck (h : str) (e : entry)                 (* lines 381-383 *)
| UTok (h : str) (e : entry)                   (* line 387: the start of update_entity *)
| UUpd (h : str) (e : entry) (v t : Z)         (* line 387: the UPDATE; t: when it started *)
| UDel (h : str) (e : entry) (t : Z).          (* line 388; t: when the time was last looked at *)

Inductive event :=
| ELock (c : nat) (h : str) (t timeout : Z)    (* lock(h, timeout) is called at time t *)
| ELocked (c : nat) (h : str) (t : Z)          (* it returns at time t *)
| ELockError (c : nat) (h : str) (t : Z)       (* it raises LockError at time t *)
| EUnlock (c : nat) (h : str) (t : Z)          (* unlock(h) is called at time t *)
| EUnlocked (c : nat) (h : str) (t : Z)        (* it returns at time t *)
| EReleased (c : nat) (h : str) (o : nat).     (* c's unlock deleted an entry owned by o *)

Inductive label :=
| Tick (d : nat)                               (* time passes *)
| CallLock (c : nat) (h : str) (timeout : Z)
| CallUnlock (c : nat) (h : str)
| Run (c : nat).                               (* the next step of c's call *)

Record sys := mkSys { s_now : Z; s_tab : str -> option entry; s_pc : nat -> pc }.

Definition tset (f : str -> option entry) (h : str) (v : option entry) : str -> option entry :=
  fun h' => if str_dec h' h then v else f h'.
Definition pset (f : nat -> pc) (c : nat) (v : pc) : nat -> pc :=
  fun c' => if Nat.eqb c' c then v else f c'.

Section Lock.
  Variable U : Z.       (* how many units of the clock are in a second *)
  Variable T : Z.       (* lock_timeout, in units of the clock *)
  (** Does the entity set check the concurrency token [created] when it is updated, and set it
      anew?  True for SQL-backed entity sets (odata2/sqlds.py lines 2253, 2490-2573), false for
      in-memory ones (odata2/memds.py lines 165-191, 476-481). *)
  Variable occ : bool.

  (** iso8601.py lines 2396-2401: from_now_utc has whole seconds only *)
  Definition from_now (t : Z) : Z := t / U * U.

  (** odata2/csdl.py lines 2789-2797: a new date/time token, different from the old one *)
  Definition new_token (old t : Z) : Z := if from_now t =? old then old + U else from_now t.

  (** lines 307 and 343-344: go round again, or give up *)
  Definition again (c : nat) (now : Z) (h : str) (tstop : Z) : pc * list event :=
    if now <? tstop then (LStamp h now tstop, nil) else (Idle, [ELockError c h now]).

  (** one step: new table, new position, events *)
  Definition run1 (now : Z) (tab : str -> option entry) (c : nat) (p : pc)
    : option ((str -> option entry) * pc * list event) :=
    match p with
    | Idle => None
    | LStamp h tnow tstop => Some (tab, LTok h tnow tstop (from_now now), nil)
    | LTok h tnow tstop v =>
        Some (tab, LIns h tnow tstop (if occ then new_token v now else v), nil)
    | LIns h tnow tstop v =>
        match tab h with
        | None => Some (tset tab h (Some (mkEnt c v)), Idle, [ELocked c h now])
        | Some _ => Some (tab, LRead h tnow tstop, nil)          (* ConstraintError *)
        end
    | LRead h tnow tstop =>
        match tab h with
        | None => Some (tab, LNext h tstop, nil)
        | Some e =>
            if e_created e + T <? tnow then Some (tab, LSteal h tnow tstop e, nil)
            else Some (tab, LNext h tstop, nil)
        end
    | LSteal h tnow tstop e =>
        Some (tab, LUpd h tnow tstop e (if occ then new_token (e_created e) now else e_created e), nil)
    | LUpd h tnow tstop e v =>
        match tab h with
        | None => Some (tab, LNext h tstop, nil)                 (* KeyError *)
        | Some e' =>
            if occ && negb (e_created e' =? e_created e)
            then Some (tab, LNext h tstop, nil)                  (* ConcurrencyError *)
            else Some (tset tab h (Some (mkEnt c v)), Idle, [ELocked c h now])
        end
    | LNext h tstop => let (p', ev) := again c now h tstop in Some (tab, p', ev)
    | URead h =>
        match tab h with
        | None => Some (tab, Idle, [EUnlocked c h now])          (* KeyError *)
        | Some e =>
            if Nat.eqb (e_owner e) c then Some (tab, UCheck h e, nil)
            else Some (tab, Idle, [EUnlocked c h now])
        end
    | UCheck h e =>
        if e_created e + T <? now + U then Some (tab, UTok h e, nil) else Some (tab, UDel h e now, nil)
    | UTok h e =>
        Some (tab, UUpd h e (if occ then new_token (e_created e) now else e_created e) now, nil)
    | UUpd h e v t =>
        match tab h with
        | None => Some (tab, Idle, [EUnlocked c h now])          (* KeyError *)
        | Some e' =>
            if occ && negb (e_created e' =? e_created e)
            then Some (tab, Idle, [EUnlocked c h now])           (* ConcurrencyError *)
            else Some (tset tab h (Some (mkEnt c v)), UDel h (mkEnt c v) t, nil)
        end
    | UDel h e _ =>
        match tab h with
        | None => Some (tab, Idle, [EUnlocked c h now])          (* KeyError *)
        | Some e' => Some (tset tab h None, Idle, [EReleased c h (e_owner e'); EUnlocked c h now])
        end
    end.

  Definition step (s : sys) (l : label) : option (sys * list event) :=
    let now := s_now s in
    match l with
    | Tick d => Some (mkSys (now + Z.of_nat d) (s_tab s) (s_pc s), nil)
    | CallLock c h timeout =>                                    (* lines 302-307 *)
        match s_pc s c with
        | Idle =>
            let (p, ev) := again c now h (now + timeout) in
            Some (mkSys now (s_tab s) (pset (s_pc s) c p), ELock c h now timeout :: ev)
        | _ => None
        end
    | CallUnlock c h =>                                          (* lines 372-374 *)
        match s_pc s c with
        | Idle => Some (mkSys now (s_tab s) (pset (s_pc s) c (URead h)), [EUnlock c h now])
        | _ => None
        end
    | Run c =>
        match run1 now (s_tab s) c (s_pc s c) with
        | Some (tab, p, ev) => Some (mkSys now tab (pset (s_pc s) c p), ev)
        | None => None
        end
    end.

  (** an empty entity set, at any time *)
  Definition init (t : Z) : sys := mkSys t (fun _ => None) (fun _ => Idle).

  (** all executions in which no step is one that [bad] says it is *)
  Inductive run (bad : sys -> label -> bool) : list event -> sys -> Prop :=
  | run_nil : forall t, run bad nil (init t)
  | run_step : forall tr s l s' ev,
      run bad tr s -> step s l = Some (s', ev) -> bad s l = false -> run bad (tr ++ ev) s'.

  Fixpoint exec (s : sys) (ls : list label) : option (sys * list event) :=
    match ls with
    | nil => Some (s, nil)
    | l :: r =>
        match step s l with
        | None => None
        | Some (s1, e1) =>
            match exec s1 r with Some (s2, e2) => Some (s2, e1 ++ e2) | None => None end
        end
    end.
End Lock.
