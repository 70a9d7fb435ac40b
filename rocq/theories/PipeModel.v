(** Model of the class Pipe, pyslet/streams.py lines 163-750.

    Concurrency.  Every public method does its work inside [with self.lock] where
    [self.lock] is a threading.Condition over an RLock (lines 231-232), and gives the
    lock up only inside [self.lock.wait] (which releases all recursion levels) or on
    return.  A schedule is therefore a sequence of atomic steps: "thread t enters a
    method and runs it until it returns or waits" and "thread t, waiting, is resumed and
    runs until it returns or waits again".  [close] is the exception: it releases the
    lock and then, unlocked, calls the base class close and sets the event; it is three
    steps here.

    Time.  The clock is not modelled: each step carries a boolean [expired], the
    outcome of the test [twait < 0] if the step reaches one; it is only looked at when
    a timeout was given.  So every timing is covered.

    Waking.  A waiting thread resumes only after a notify_all issued since it started to
    wait, or because it waits with a timeout (CPython's Condition.wait has no spurious
    wake-ups).

    Ghost events [EAccept] and [ETake] record when bytes enter and leave the buffer;
    PipeProps ties them to the values the methods return. *)
From Verif Require Import Py.

(** what is passed to write: lines 439-501 dispatch on the type *)
Inductive wdata :=
| DBytes (b : str)      (* an immutable bytes object *)
| DView (b : str)       (* a memoryview, copied to bytes, lines 453-455 *)
| DArray (b : str)      (* a bytearray *)
| DOther.               (* anything else: TypeError *)

(** errno values and exceptions the methods raise *)
Inductive perr := EPIPE | ETIMEDOUT | EWOULDBLOCK | ENOBUFS | ETYPE.

(** values returned to the caller.  [VData s] is the bytes object s returned by read,
    readall, readmatch, and for readinto the integer len(s) with s stored in b[:len(s)] *)
Inductive ret :=
| VNone | VInt (n : Z) | VBool (b : bool) | VData (s : str) | VErr (e : perr).

(** the argument [method] of Pipe.wait, lines 313-328, 396-437 *)
Inductive cond := CanWrite | Empty | CanRead.

(** the public methods *)
Inductive op :=
| OWrite (d : wdata)
| OWriteEof
| ORead (n : nat)                (* read(n), n >= 0 *)
| OReadInto (n : nat)            (* readinto(b), n = len(b) *)
| OReadAll                       (* readall(), read(-1) *)
| OReadMatch (m : str)
| OFlush
| OClose
| OCanWrite | OCanRead | OEmpty | OBuffered
| OWaitFor (c : cond) (tmo : bool)   (* write_wait, flush_wait, read_wait; tmo: a timeout given *)
| OSetReadBlocking (b : bool)
| OSetWriteBlocking (b : bool)
| OReadBlocking
| OSetRFlag (v : bool)           (* set_rflag(e), e an Event with e.is_set() = v *)
| OEventClear.                   (* the caller clears the Event it registered *)

(** the attributes, lines 213-240 *)
Record pipe := mkPipe {
  p_max : Z;                (* self.max *)
  p_tmo : bool;             (* self.timeout is not None *)
  p_buf : list str;         (* self.buffer *)
  p_bsize : Z;              (* self.bsize *)
  p_rpos : nat;             (* self.rpos *)
  p_eof : bool;             (* self._eof *)
  p_closed : bool;          (* self.closed, from io.IOBase *)
  p_rbl : bool;             (* self.rblocking *)
  p_wbl : bool;             (* self.wblocking *)
  p_rflag : option bool;    (* self.rflag: None or whether the Event is set *)
  p_wstate : Z;
  p_rstate : Z
}.

(** lines 213-240: the constructor *)
Definition new_pipe (bsize : Z) (rblocking wblocking timeout : bool) : pipe :=
  mkPipe bsize timeout nil 0 0 false false rblocking wblocking None 0 0.

(** attribute assignments *)
Definition set_buf (p : pipe) (b : list str) (bs : Z) (r : nat) : pipe :=
  mkPipe (p_max p) (p_tmo p) b bs r (p_eof p) (p_closed p) (p_rbl p) (p_wbl p)
         (p_rflag p) (p_wstate p) (p_rstate p).
Definition set_eof (p : pipe) : pipe :=
  mkPipe (p_max p) (p_tmo p) (p_buf p) (p_bsize p) (p_rpos p) true (p_closed p) (p_rbl p) (p_wbl p)
         (p_rflag p) (p_wstate p) (p_rstate p).
Definition set_closed (p : pipe) : pipe :=
  mkPipe (p_max p) (p_tmo p) (p_buf p) (p_bsize p) (p_rpos p) (p_eof p) true (p_rbl p) (p_wbl p)
         (p_rflag p) (p_wstate p) (p_rstate p).
Definition set_rbl (p : pipe) (b : bool) : pipe :=
  mkPipe (p_max p) (p_tmo p) (p_buf p) (p_bsize p) (p_rpos p) (p_eof p) (p_closed p) b (p_wbl p)
         (p_rflag p) (p_wstate p) (p_rstate p).
Definition set_wbl (p : pipe) (b : bool) : pipe :=
  mkPipe (p_max p) (p_tmo p) (p_buf p) (p_bsize p) (p_rpos p) (p_eof p) (p_closed p) (p_rbl p) b
         (p_rflag p) (p_wstate p) (p_rstate p).
Definition set_flag (p : pipe) (f : option bool) : pipe :=
  mkPipe (p_max p) (p_tmo p) (p_buf p) (p_bsize p) (p_rpos p) (p_eof p) (p_closed p) (p_rbl p) (p_wbl p)
         f (p_wstate p) (p_rstate p).
Definition inc_wstate (p : pipe) : pipe :=
  mkPipe (p_max p) (p_tmo p) (p_buf p) (p_bsize p) (p_rpos p) (p_eof p) (p_closed p) (p_rbl p) (p_wbl p)
         (p_rflag p) (p_wstate p + 1) (p_rstate p).
Definition inc_rstate (p : pipe) : pipe :=
  mkPipe (p_max p) (p_tmo p) (p_buf p) (p_bsize p) (p_rpos p) (p_eof p) (p_closed p) (p_rbl p) (p_wbl p)
         (p_rflag p) (p_wstate p) (p_rstate p + 1).

(** "if self.rflag is not None: self.rflag.set()" / ".clear()" *)
Definition flag_set (p : pipe) : pipe :=
  match p_rflag p with None => p | Some _ => set_flag p (Some true) end.
Definition flag_clear (p : pipe) : pipe :=
  match p_rflag p with None => p | Some _ => set_flag p (Some false) end.

(** self.max - self.bsize + self.rpos, lines 364, 456, 480 *)
Definition wlen (p : pipe) : Z := p_max p - p_bsize p + Z.of_nat (p_rpos p).

(** where a thread waits *)
Inductive rcall :=
| KInto (n : nat)
| KRead (n : nat)
| KAll (data : list str) (save : bool).

Inductive waiting :=
| WWrite (d : wdata)                  (* line 475 *)
| WRead (k : rcall)                   (* line 730, called from readinto, read or readall *)
| WMatch (m : str) (cstate : Z)       (* line 656 *)
| WFlush                              (* line 552 *)
| WCond (c : cond) (tmo : bool).      (* line 328 *)

(** io.DEFAULT_BUFFER_SIZE *)
Definition default_buffer_size : nat := Z.to_nat 8192.

(** result of a method body run up to its return or its wait: the new attributes, whether
    notify_all was called, the bytes accepted and taken, and the end *)
Inductive fin := Return (v : ret) | Waits (w : waiting).
Record out := mkOut {
  o_pipe : pipe; o_notify : bool; o_acc : str; o_take : str; o_fin : fin }.

(** canwrite, lines 346-369: None is the EPIPE error *)
Definition canwrite (p : pipe) : pipe * option Z :=
  if p_closed p || p_eof p then (p, None)
  else if wlen p <=? 0 then (flag_clear p, Some 0)
  else (p, Some (wlen p)).

(** canread, lines 412-429: None is the EPIPE error *)
Definition canread (p : pipe) : option bool :=
  if p_closed p then None
  else match p_buf p with
       | _ :: _ => Some true
       | nil => Some (p_eof p)
       end.

(** empty, lines 331-337 *)
Definition empty (p : pipe) : bool :=
  match p_buf p with nil => true | _ => false end.

(** buffered, lines 339-342 *)
Definition buffered (p : pipe) : Z := p_bsize p - Z.of_nat (p_rpos p).

(** write, lines 448-501; the test of lines 449-452 and that of lines 476-479 after a
    wait are the same *)
Definition write_body (p : pipe) (d : wdata) (expired : bool) : out :=
  if p_closed p || p_eof p then mkOut p false nil nil (Return (VErr EPIPE))
  else if wlen p <=? 0 then
    if p_wbl p then
      if p_tmo p && expired then mkOut p false nil nil (Return (VErr ETIMEDOUT))
      else mkOut p false nil nil (Waits (WWrite d))
    else mkOut p false nil nil (Return VNone)
  else
    match d with
    | DBytes b | DView b =>
        match b with
        | nil => mkOut p false nil nil (Return (VInt 0))
        | _ => mkOut (inc_wstate (set_buf p (p_buf p ++ [b]) (p_bsize p + Z.of_nat (length b))
                                    (p_rpos p)))
                     true b nil (Return (VInt (Z.of_nat (length b))))
        end
    | DArray b =>
        let n := if wlen p <? Z.of_nat (length b) then Z.to_nat (wlen p) else length b in
        let b' := firstn n b in
        mkOut (inc_wstate (set_buf p (p_buf p ++ [b']) (p_bsize p + Z.of_nat n) (p_rpos p)))
              true b' nil (Return (VInt (Z.of_nat n)))
    | DOther => mkOut p false nil nil (Return (VErr ETYPE))
    end.

(** write_eof, lines 503-511 *)
Definition write_eof_body (p : pipe) : out :=
  mkOut (inc_wstate (set_eof p)) true nil nil (Return VNone).

(** flush, lines 531-557.  The restart of the clock when the reader makes progress is
    covered by [expired] being arbitrary *)
Definition flush_body (p : pipe) (expired : bool) : out :=
  match p_buf p with
  | nil => mkOut p false nil nil (Return VNone)
  | _ =>
      if p_wbl p then
        if p_tmo p && expired then mkOut p false nil nil (Return (VErr ETIMEDOUT))
        else mkOut p false nil nil (Waits WFlush)
      else mkOut p false nil nil (Return (VErr EWOULDBLOCK))
  end.

(** result of the inner read calls *)
Inductive rr :=
| RGot (p : pipe) (nt : bool) (data : str)
| RNone (p : pipe)
| RTimeout (p : pipe)
| RWait (p : pipe).

(** readinto, the loop and what follows it, lines 718-750 *)
Definition readinto_loop (p : pipe) (n : nat) (expired : bool) : rr :=
  match p_buf p with
  | nil =>
      if p_eof p then RGot p false nil
      else if p_rbl p then
        if p_tmo p && expired then RTimeout p else RWait p
      else RNone p
  | src :: rest =>
      let rlen := (length src - p_rpos p)%nat in
      let k := if Nat.ltb rlen n then rlen else n in
      let data := slice (p_rpos p) (p_rpos p + k) src in
      let rpos' := (p_rpos p + k)%nat in
      let p1 := if Nat.leb (length src) rpos'
                then set_buf p rest (p_bsize p - Z.of_nat (length src)) 0
                else set_buf p (p_buf p) (p_bsize p) rpos' in
      if Nat.eqb k 0 then RGot p1 false data
      else RGot (inc_rstate p1) true data
  end.

(** readinto from its start: the reader flag is set first, lines 710-717 *)
Definition readinto_start (p : pipe) (n : nat) (expired : bool) : rr :=
  readinto_loop (flag_set p) n expired.

(** read(n), n >= 0, lines 681-700 *)
Definition read_start (p : pipe) (n : nat) (expired : bool) : rr :=
  match p_buf p, p_rpos p with
  | src :: rest, O =>
      if Nat.leb (length src) n then
        RGot (flag_set (inc_rstate (set_buf p rest (p_bsize p - Z.of_nat (length src)) 0)))
             true src
      else readinto_start p n expired
  | _, _ => readinto_start p n expired
  end.

Definition read_out (k : rcall) (r : rr) : out :=
  match r with
  | RGot p nt d => mkOut p nt nil d (Return (VData d))
  | RNone p => mkOut p false nil nil (Return VNone)
  | RTimeout p => mkOut p false nil nil (Return (VErr ETIMEDOUT))
  | RWait p => mkOut p false nil nil (Waits (WRead k))
  end.

(** readall, lines 583-595, once [part] (the result of the current read call) is known.
    [taken] is what this step took.  The finally clause assigns self.rlocking, not
    self.rblocking, so that it has no effect on the attributes modelled.
    [fuel] bounds the number of read calls in this step. *)
Fixpoint readall_loop (fuel : nat) (r : rr) (data : list str) (save : bool)
         (nt : bool) (taken : str) (expired : bool) : option out :=
  match r with
  | RGot p nt' nil => Some (mkOut p (nt || nt') nil taken (Return (VData (concat data))))
  | RNone p => Some (mkOut p nt nil taken (Return (VData (concat data))))
  | RTimeout p => Some (mkOut p nt nil taken (Return (VErr ETIMEDOUT)))
  | RWait p => Some (mkOut p nt nil taken (Waits (WRead (KAll data save))))
  | RGot p nt' part =>
      match fuel with
      | O => None
      | S fuel' =>
          readall_loop fuel' (read_start p default_buffer_size expired) (data ++ [part]) save
            (nt || nt') (taken ++ part) expired
      end
  end.

Definition readall_fuel (p : pipe) : nat := S (length (concat (p_buf p))).

(** readall from its start, lines 582-587 *)
Definition readall_start (p : pipe) (expired : bool) : option out :=
  let p' := set_rbl p true in
  readall_loop (readall_fuel p') (read_start p' default_buffer_size expired) nil (p_rbl p)
    false nil expired.

(** bytes.find(match, start) for start >= 0: the position, if any *)
Fixpoint prefixb (m s : str) : bool :=
  match m, s with
  | nil, _ => true
  | x :: m', y :: s' => (x =? y) && prefixb m' s'
  | _, _ => false
  end.
Fixpoint find_at (m s : str) (pos : nat) : option nat :=
  if prefixb m s then Some pos
  else match s with nil => None | _ :: s' => find_at m s' (S pos) end.
Definition find_from (m s : str) (start : nat) : option nat :=
  if Nat.ltb (length s) start then None else find_at m (skipn start s) start.

(** _consolidate_buffer, lines 597-603 *)
Definition consolidate (p : pipe) : pipe :=
  match p_buf p with
  | nil => p
  | b0 :: rest => set_buf p [concat (skipn (p_rpos p) b0 :: rest)] (p_bsize p) 0
  end.

(** readmatch, one turn of the loop, lines 614-672 *)
Definition readmatch_found (p : pipe) (m : str) (pos : nat) : out :=
  match p_buf p with
  | nil => mkOut p false nil nil (Return VNone)       (* not reached *)
  | src :: rest =>
      let result := slice (p_rpos p) (pos + length m) src in
      let rpos' := (p_rpos p + length result)%nat in
      let p1 := if Nat.leb (length src) rpos'
                then set_buf p rest (p_bsize p - Z.of_nat (length src)) 0
                else set_buf p (p_buf p) (p_bsize p) rpos' in
      mkOut (flag_set (inc_rstate p1)) true nil result (Return (VData result))
  end.

Definition readmatch_nomatch (p : pipe) (m : str) : out :=
  if p_eof p then mkOut p false nil nil (Return (VData nil))
  else
    match canwrite p with
    | (p', None) => mkOut p' false nil nil (Return (VErr EPIPE))
    | (p', Some n) =>
        if n =? 0 then mkOut p' false nil nil (Return (VErr ENOBUFS))
        else
          let p2 := flag_set p' in
          if p_rbl p2 then mkOut p2 false nil nil (Waits (WMatch m (p_wstate p2)))
          else mkOut p2 false nil nil (Return VNone)
    end.

Definition readmatch_body (p : pipe) (m : str) : out :=
  match p_buf p with
  | nil => readmatch_nomatch p m
  | b0 :: _ =>
      match find_from m b0 (p_rpos p) with
      | Some pos => readmatch_found p m pos
      | None =>
          let p' := consolidate p in
          match p_buf p' with
          | nil => readmatch_nomatch p' m            (* not reached *)
          | b0' :: _ =>
              match find_from m b0' 0 with
              | Some pos => readmatch_found p' m pos
              | None => readmatch_nomatch p' m
              end
          end
      end
  end.

(** after the wait of line 656: lines 657-664 *)
Definition readmatch_resume (p : pipe) (m : str) (cstate : Z) : out :=
  if p_wstate p =? cstate then mkOut p false nil nil (Return (VErr ETIMEDOUT))
  else readmatch_body p m.

(** wait, lines 313-328 *)
Definition cond_body (p : pipe) (c : cond) (tmo expired : bool) : out :=
  let blocked p' := if tmo && expired then mkOut p' false nil nil (Return (VErr ETIMEDOUT))
                    else mkOut p' false nil nil (Waits (WCond c tmo)) in
  match c with
  | CanWrite =>
      match canwrite p with
      | (p', None) => mkOut p' false nil nil (Return (VErr EPIPE))
      | (p', Some n) => if n =? 0 then blocked p' else mkOut p' false nil nil (Return VNone)
      end
  | Empty => if empty p then mkOut p false nil nil (Return VNone) else blocked p
  | CanRead =>
      match canread p with
      | None => mkOut p false nil nil (Return (VErr EPIPE))
      | Some true => mkOut p false nil nil (Return VNone)
      | Some false => blocked p
      end
  end.

Definition pure (p : pipe) (v : ret) : option out := Some (mkOut p false nil nil (Return v)).

(** the first locked part of a call; [OClose] is treated by [step] *)
Definition call_body (p : pipe) (o : op) (expired : bool) : option out :=
  match o with
  | OWrite d => Some (write_body p d expired)
  | OWriteEof => Some (write_eof_body p)
  | ORead n => Some (read_out (KRead n) (read_start p n expired))
  | OReadInto n => Some (read_out (KInto n) (readinto_start p n expired))
  | OReadAll => readall_start p expired
  | OReadMatch m => Some (readmatch_body p m)
  | OFlush => Some (flush_body p expired)
  | OClose => None
  | OCanWrite =>
      match canwrite p with
      | (p', None) => pure p' (VErr EPIPE)
      | (p', Some n) => pure p' (VInt n)
      end
  | OCanRead => match canread p with None => pure p (VErr EPIPE) | Some b => pure p (VBool b) end
  | OEmpty => pure p (VBool (empty p))
  | OBuffered => pure p (VInt (buffered p))
  | OWaitFor c tmo => Some (cond_body p c tmo expired)
  | OSetReadBlocking b => pure (set_rbl p b) VNone            (* lines 285-292 *)
  | OSetWriteBlocking b => pure (set_wbl p b) VNone           (* lines 298-305 *)
  | OReadBlocking => pure p (VBool (p_rbl p))                 (* lines 281-283 *)
  | OSetRFlag v => pure (set_flag p (Some (v || p_closed p))) VNone   (* lines 371-394 *)
  | OEventClear => pure (flag_clear p) VNone
  end.

(** the code after a wait *)
Definition resume_body (p : pipe) (w : waiting) (expired : bool) : option out :=
  match w with
  | WWrite d => Some (write_body p d expired)
  | WRead (KInto n) => Some (read_out (KInto n) (readinto_loop p n expired))
  | WRead (KRead n) => Some (read_out (KRead n) (readinto_loop p n expired))
  | WRead (KAll data save) =>
      readall_loop (readall_fuel p) (readinto_loop p default_buffer_size expired) data save
        false nil expired
  | WMatch m cs => Some (readmatch_resume p m cs)
  | WFlush => Some (flush_body p expired)
  | WCond c tmo => Some (cond_body p c tmo expired)
  end.

(** close, lines 253-276.  Locked part: lines 264-273. *)
Definition close_locked (p : pipe) : pipe := inc_wstate (inc_rstate (set_eof (set_buf p nil 0 0))).

(** what a thread is doing *)
Inductive thread :=
| Idle
| Waiting (woken : bool) (w : waiting)
| Closing1     (* lock released, before io.RawIOBase.close, line 274 *)
| Closing2.    (* self.closed is set, before line 277 *)

Inductive event :=
| ECall (t : nat) (o : op)
| EAccept (t : nat) (s : str)
| ETake (t : nat) (s : str)
| EDiscard (s : str)
| ERet (t : nat) (v : ret).

Record sys := mkSys { s_pipe : pipe; s_thr : nat -> thread }.

Definition upd (f : nat -> thread) (t : nat) (v : thread) : nat -> thread :=
  fun t' => if Nat.eqb t' t then v else f t'.

(** notify_all *)
Definition wake (th : thread) : thread :=
  match th with Waiting _ w => Waiting true w | _ => th end.
Definition notify (nt : bool) (f : nat -> thread) : nat -> thread :=
  if nt then (fun t => wake (f t)) else f.

(** does the wait have a time limit?  line 475, 552, 656, 730: self.timeout; 328: timeout *)
Definition timed (p : pipe) (w : waiting) : bool :=
  match w with WCond _ tmo => tmo | _ => p_tmo p end.

Inductive label :=
| LCall (t : nat) (o : op) (expired : bool)
| LRun (t : nat) (expired : bool).

(** bytes in the buffer not yet taken *)
Definition unread (p : pipe) : str := skipn (p_rpos p) (concat (p_buf p)).

Definition finish (s : sys) (t : nat) (o : out) : sys * list event :=
  let thr := notify (o_notify o) (s_thr s) in
  let ev := [EAccept t (o_acc o); ETake t (o_take o)] in
  match o_fin o with
  | Return v => (mkSys (o_pipe o) (upd thr t Idle), ev ++ [ERet t v])
  | Waits w => (mkSys (o_pipe o) (upd thr t (Waiting false w)), ev)
  end.

(** one atomic step; None: the label is not enabled *)
Definition step (s : sys) (l : label) : option (sys * list event) :=
  match l with
  | LCall t o expired =>
      match s_thr s t with
      | Idle =>
          match o with
          | OClose =>
              Some (mkSys (close_locked (s_pipe s)) (upd (notify true (s_thr s)) t Closing1),
                    [ECall t o; EDiscard (unread (s_pipe s))])
          | _ =>
              match call_body (s_pipe s) o expired with
              | Some r => let (s', ev) := finish s t r in Some (s', ECall t o :: ev)
              | None => None
              end
          end
      | _ => None
      end
  | LRun t expired =>
      match s_thr s t with
      | Idle => None
      | Waiting woken w =>
          if woken || timed (s_pipe s) w then
            match resume_body (s_pipe s) w expired with
            | Some r => Some (finish s t r)
            | None => None
            end
          else None
      | Closing1 =>
          (* io.RawIOBase.close calls self.flush(), which finds the buffer empty and
             returns (lemma closing_empty), and then marks the object closed *)
          Some (mkSys (set_closed (s_pipe s)) (upd (s_thr s) t Closing2), nil)
      | Closing2 =>
          Some (mkSys (flag_set (s_pipe s)) (upd (s_thr s) t Idle), [ERet t VNone])
      end
  end.

Definition init (bsize : Z) (rblocking wblocking timeout : bool) : sys :=
  mkSys (new_pipe bsize rblocking wblocking timeout) (fun _ => Idle).

(** all the runs: a trace and the state it leads to *)
Inductive run (s0 : sys) : list event -> sys -> Prop :=
| run_nil : run s0 nil s0
| run_step : forall tr s l s' ev,
    run s0 tr s -> step s l = Some (s', ev) -> run s0 (tr ++ ev) s'.

(** executable runs, for examples *)
Fixpoint exec (s : sys) (ls : list label) : option (sys * list event) :=
  match ls with
  | nil => Some (s, nil)
  | l :: ls' =>
      match step s l with
      | None => None
      | Some (s1, e1) =>
          match exec s1 ls' with
          | None => None
          | Some (s2, e2) => Some (s2, e1 ++ e2)
          end
      end
  end.
