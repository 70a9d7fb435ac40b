(** Model of the connections and requests of the HTTP client, pyslet/http/client.py: Connection lines 128-465, 607-664, 697-811 and
    ClientRequest 1673-1982, ClientResponse 1984-2036.

    A state has any number of connections and requests, both by number.  A schedule is a sequence of steps of connection_task
    (198-402), each for one connection, chosen freely: so every division of the work into calls of thread_task and every
    behaviour of the sockets and servers is covered.  How a response is cut into lines and blocks is the subject of C73-C78;
    here a response is a status line that arrives and a moment at which it is complete.  Times are left out (a step that
    may wait may also happen).  The connection on which Client.queue_request (1231-1306) puts a request that is sent
    again, and whether there are a Location or credentials (1963-1981), are given by [resends]: for each call of finished a
    list of connections.  Exceptions of the socket, of the parser and of Message.start_sending may happen at any time and end in
    Connection.close, as in thread_task 1443-1445; exceptions of set_url and queue_request in resend are left out.  After an
    upgrade (426-465) the connection is in mode Tunnelling, in which nothing is modelled.  Python 3: in 1921 [isinstance(data,
    str)] is False for bytes, and in 1927 [self.response >= 200] raises TypeError. *)
From Coq Require Export List Arith Bool Lia.
Export ListNotations.

Definition bytes := list nat.
Inductive mode := Ready | BodyWaiting | BodySending | UpgradeWaiting | Tunnelling.
(** 150-181: the send buffer is a list of blocks, each with the request that it belongs to (for the history only) *)
Record conn := mkC { queue : list nat; request : option nat; response : option nat; response_queue : list nat; cmode : mode;
                     buffer : list (nat * bytes); buffered : nat; sent : nat; socket : bool }.
(** 1677-1732; [rstatus]: the status of the associated response, [connection]: connected to; [rest]: the blocks that send_body has
    still to give *)
Record req := mkR { nretries : nat; max_retries : nat; send_pos : nat; connection : option nat; status : nat; error : bool;
                    rstatus : option nat; rest : list bytes }.
(** The history: a request is queued on a connection; a connection starts a request, with the message that is to be sent; bytes of it are
    given to the socket; a status line is received for it; the response is complete (and was the request still being sent?); the
    hook finished is called, with the status and whether there is an error; a request is queued again by close;
    the socket was found closed before a request; close was called; the connection has switched protocols *)
Inductive event := Queued (k r : nat) | Start (k r : nat) (message : bytes) | Sent (k r : nat) (d : bytes) | Status (k r s : nat)
  | Answered (k r s : nat) (early : bool) | Finished (r s : nat) (err : bool) | Retried (k r : nat) | Dropped (k : nat) | Closed (k : nat) | Switched (k : nat).
(** [calls]: the number of calls of finished so far *)
Record st := mkS { conns : nat -> conn; reqs : nat -> req; calls : nat; trace : list event }.

Definition upd {A} (f : nat -> A) (k : nat) (v : A) : nat -> A := fun x => if x =? k then v else f x.
Definition emit (e : event) (s : st) : st := mkS (conns s) (reqs s) (calls s) (e :: trace s).
Definition on_conn (k : nat) (f : conn -> conn) (s : st) : st := mkS (upd (conns s) k (f (conns s k))) (reqs s) (calls s) (trace s).
Definition on_req (r : nat) (f : req -> req) (s : st) : st := mkS (conns s) (upd (reqs s) r (f (reqs s r))) (calls s) (trace s).
Definition called (s : st) : st := mkS (conns s) (reqs s) (S (calls s)) (trace s).

Definition set_queue q c := mkC q (request c) (response c) (response_queue c) (cmode c) (buffer c) (buffered c) (sent c) (socket c).
Definition set_request o c := mkC (queue c) o (response c) (response_queue c) (cmode c) (buffer c) (buffered c) (sent c) (socket c).
Definition set_responses o l c := mkC (queue c) (request c) o l (cmode c) (buffer c) (buffered c) (sent c) (socket c).
Definition set_mode m c := mkC (queue c) (request c) (response c) (response_queue c) m (buffer c) (buffered c) (sent c) (socket c).
Definition set_buffer b n c := mkC (queue c) (request c) (response c) (response_queue c) (cmode c) b n (sent c) (socket c).
Definition set_sent b n c := mkC (queue c) (request c) (response c) (response_queue c) (cmode c) b (buffered c) n (socket c).
Definition set_socket b c := mkC (queue c) (request c) (response c) (response_queue c) (cmode c) (buffer c) (buffered c) (sent c) b.
Definition set_retries n m q := mkR n m (send_pos q) (connection q) (status q) (error q) (rstatus q) (rest q).
Definition set_connection o p q := mkR (nretries q) (max_retries q) p o (status q) (error q) (rstatus q) (rest q).
Definition set_status s e q := mkR (nretries q) (max_retries q) (send_pos q) (connection q) s e (rstatus q) (rest q).
Definition set_rstatus o q := mkR (nretries q) (max_retries q) (send_pos q) (connection q) (status q) (error q) o (rest q).
Definition set_rest l q := mkR (nretries q) (max_retries q) (send_pos q) (connection q) (status q) (error q) (rstatus q) l.

Definition informational (s : nat) : bool := (100 <=? s) && (s <=? 199).
Definition is_mode (m m' : mode) : bool := match m, m' with Ready, Ready | BodyWaiting, BodyWaiting | BodySending, BodySending
  | UpgradeWaiting, UpgradeWaiting | Tunnelling, Tunnelling => true | _, _ => false end.
Definition is_some {A} (o : option A) : bool := match o with Some _ => true | None => false end.
Definition is_request (k r : nat) (s : st) : bool := match request (conns s k) with Some r' => r' =? r | None => false end.

Section client.
  (** Request.is_idempotent, messages.py 1628-1630; is the method GET or HEAD, 1956-1957; auto_redirect; is Connection: upgrade set? *)
  Variables idempotent get_or_head auto_redirect upgrade : nat -> bool.
  Variable resends : nat -> list nat.
  (** for the requests that are moved by 439-440 *)
  Variable place : nat -> nat.

  (** 195-196, 1305-1306 *)
  Definition enqueue (k r : nat) (s : st) : st := on_conn k (fun c => set_queue (queue c ++ [r]) c) s.
  (** 1788-1801 *)
  Definition resend (k r : nat) (s : st) : st := emit (Queued k r) (enqueue k r (on_req r (set_status 0 false) s)).
  (** 1939-1981 *)
  Definition finished (r : nat) (s : st) : st :=
    let q := reqs s r in
    let l := resends (calls s) in
    let s' := called (emit (Finished r (status q) (error q)) s) in
    if auto_redirect r && (300 <=? status q) && (status q <=? 399) && (negb (status q =? 302) || get_or_head r) then
      match l with [] => s' | k :: _ => resend k r s' end
    else if status q =? 401 then fold_left (fun s k => resend k r s) l s'
    else s'.
  (** 1822-1850 *)
  Definition disconnect (r pos : nat) (s : st) : st :=
    let s := on_req r (fun q => set_connection None (send_pos q)
               (if idempotent r || (pos <=? send_pos q) then set_retries (S (nretries q)) (max_retries q) q else set_retries (S (nretries q)) 0 q)) s in
    if 0 <? status (reqs s r) then finished r s else s.
  (** 1780-1786 *)
  Definition can_retry (q : req) : bool := nretries q <=? max_retries q.
  (** 414-424 *)
  Definition continue_sending (k r : nat) (s : st) : st :=
    if is_request k r s && is_mode (cmode (conns s k)) BodyWaiting then on_conn k (set_mode BodySending) s else s.
  (** 426-465 *)
  Definition switch_protocols (k r : nat) (s : st) : st :=
    if is_request k r s && is_mode (cmode (conns s k)) UpgradeWaiting then
      let moved := queue (conns s k) in
      let s := on_conn k (fun c => set_responses (response c) [] (set_queue [] c)) s in
      let s := fold_left (fun s q => called (enqueue (if place (calls s) =? k then S k else place (calls s)) q s)) moved s in
      let s := disconnect r (sent (conns s k)) s in
      emit (Switched k) (on_conn k (fun c => set_mode Tunnelling (set_request None c)) (on_req r (fun q => set_connection (Some k) (send_pos q) q) s))
    else s.
  (** 1866-1937, with the flag: was TypeError raised? *)
  Definition response_finished (r : nat) (err : bool) (s : st) : st * bool :=
    let q := reqs s r in
    match rstatus q with
    | None => (finished r (on_req r (set_status 0 err) s), false)
    | Some n =>
      let s := on_req r (set_status n err) s in
      if informational n then
        (match connection q with
         | Some k => if (n =? 101) && upgrade r then switch_protocols k r s else continue_sending k r s
         | None => s
         end, false)
      else match connection q with
           | Some _ => if 300 <=? n then (on_req r (fun q => set_rest (tl (rest q)) q) s, false) else (s, true)
           | None => (finished r s, false)
           end
    end.
  (** 630-650: the responses that were expected on the connection k *)
  Fixpoint close_responses (k : nat) (err resend : bool) (l : list nat) (s : st) : st :=
    match l with
    | [] => s
    | r :: l =>
      if err || (negb (is_some (rstatus (reqs s r))) && resend) then
        if can_retry (reqs s r) then close_responses k err resend l (emit (Retried k r) (enqueue k r s))
        else close_responses k err false l (fst (response_finished r err s))
      else close_responses k err resend l (fst (response_finished r err s))
    end.
  Definition expected (c : conn) : list nat := match response c with Some r => r :: response_queue c | None => [] end.
  (** 607-664 *)
  Definition close (k : nat) (err : bool) (s : st) : st :=
    let s := match request (conns s k) with
             | Some r => on_conn k (set_request None) (disconnect r (sent (conns s k)) s)
             | None => s
             end in
    let l := expected (conns s k) in
    let s := close_responses k err true l (on_conn k (set_responses None []) s) in
    emit (Closed k) (on_conn k (fun c => mkC (queue c) (request c) (response c) (response_queue c) Ready [] 0 0 false) s).
  (** 697-760; [h]: the start line and header, [body]: the blocks of the body; [drop]: has _check_socket found the socket closed?
      [expect]: Expect: 100-continue is set *)
  Definition start (k r : nat) (q : list nat) (h : bytes) (body : list bytes) (drop expect : bool) (s : st) : st :=
    let c := conns s k in
    let s := on_req r (fun x => set_rest body (set_connection (Some k) (buffered c) x)) s in
    let s := on_conn k (fun c => set_queue q (set_request (Some r) (set_buffer (buffer c ++ [(r, h)]) (buffered c + length h)
                                  (set_mode (if expect then BodyWaiting else BodySending) c)))) s in
    let s := match response c with
             | Some a => on_conn k (set_responses (Some a) (response_queue c ++ [r])) s
             | None => on_req r (set_rstatus None) (on_conn k (set_responses (Some r) (response_queue c)) (if drop then emit (Dropped k) (on_conn k (set_socket false) s) else s))
             end in
    emit (Start k r (h ++ concat body)) s.
  (** 330-349: the next response *)
  Definition next_response (k : nat) (s : st) : st :=
    match response_queue (conns s k) with
    | r :: l => on_req r (set_rstatus None) (on_conn k (set_responses (Some r) l) s)
    | [] => on_conn k (set_responses None []) s
    end.
  (** the response for r is complete with the status n: 2015-2018, 2032-2036 and 327-349 *)
  Definition complete (k r n : nat) (keep_alive : bool) (s : st) : st :=
    let early := is_some (connection (reqs s r)) in
    if informational n && negb (n =? 101) then on_req r (set_rstatus None) (fst (response_finished r false s))
    else
      let (s, raised) := response_finished r false (emit (Answered k r n early) s) in
      if raised then close k true s
      else let s := next_response k s in if keep_alive then s else close k false s.

  (** 1684-1732; [retries]: max_retries, as given by the user *)
  Variable retries : nat -> nat.
  Definition new_request (r : nat) : req := mkR 0 (retries r) 0 None 0 false None [].
  Definition ready (r : nat) (c : conn) : Prop := idempotent r = true \/ (response c = None /\ buffer c = []).
  Inductive step : st -> st -> Prop :=
  (** a new request, 1677-1732, is queued by the user *)
  | s_queue : forall s k r, (forall k', ~ In (Queued k' r) (trace s)) -> step s (emit (Queued k r) (enqueue k r (on_req r (fun _ => new_request r) s)))
  (** 237-251 *)
  | s_start : forall s k r q h body drop expect, queue (conns s k) = r :: q -> cmode (conns s k) = Ready -> ready r (conns s k) ->
      h <> [] -> Forall (fun b => b <> []) body -> (drop = true -> response (conns s k) = None) -> step s (start k r q h body drop expect s)
  | s_start_raises : forall s k r q, queue (conns s k) = r :: q -> cmode (conns s k) = Ready -> ready r (conns s k) ->
      step s (close k true (on_conn k (fun c => set_queue q (set_request (Some r) c)) (on_req r (set_connection (Some k) (buffered (conns s k))) s)))
  (** 253-254 *)
  | s_connect : forall s k, is_some (request (conns s k)) || is_some (response (conns s k)) = true -> step s (on_conn k (set_socket true) s)
  (** 762-811 *)
  | s_send : forall s k r d d' b, socket (conns s k) = true -> buffer (conns s k) = (r, d ++ d') :: b -> d <> [] ->
      step s (emit (Sent k r d) (on_conn k (fun c => set_sent (match d' with [] => b | _ => (r, d') :: b end) (sent c + length d) c) s))
  | s_send_nothing : forall s k r, socket (conns s k) = true -> buffer (conns s k) <> [] -> request (conns s k) = Some r ->
      step s (on_conn k (fun c => set_buffer [] (buffered c) (set_request None c)) (disconnect r (sent (conns s k)) s))
  (** 274-299 *)
  | s_no_continue : forall s k, cmode (conns s k) = BodyWaiting -> buffer (conns s k) = [] -> step s (on_conn k (set_mode BodySending) s)
  (** 300-324 *)
  | s_body : forall s k r d l, cmode (conns s k) = BodySending -> buffer (conns s k) = [] -> request (conns s k) = Some r -> rest (reqs s r) = d :: l ->
      step s (on_conn k (fun c => set_buffer [(r, d)] (buffered c + length d) c) (on_req r (set_rest l) s))
  | s_body_upgrade : forall s k r, cmode (conns s k) = BodySending -> buffer (conns s k) = [] -> request (conns s k) = Some r -> rest (reqs s r) = [] ->
      upgrade r = true -> step s (on_conn k (set_mode UpgradeWaiting) s)
  | s_body_end : forall s k r, cmode (conns s k) = BodySending -> buffer (conns s k) = [] -> request (conns s k) = Some r -> rest (reqs s r) = [] ->
      upgrade r = false -> step s (on_conn k (fun c => set_mode Ready (set_request None c)) (disconnect r (sent (conns s k)) s))
  (** 325-333 *)
  | s_no_upgrade : forall s k r, cmode (conns s k) = UpgradeWaiting -> buffer (conns s k) = [] -> request (conns s k) = Some r -> status (reqs s r) <> 0 ->
      step s (on_conn k (fun c => set_mode Ready (set_request None c)) (disconnect r (sent (conns s k)) s))
  (** 813-949 *)
  | s_status : forall s k r n, socket (conns s k) = true -> response (conns s k) = Some r -> rstatus (reqs s r) = None ->
      step s (emit (Status k r n) (on_req r (set_rstatus (Some n)) s))
  | s_complete : forall s k r n keep_alive, response (conns s k) = Some r -> rstatus (reqs s r) = Some n -> step s (complete k r n keep_alive s)
  | s_hang_up : forall s k r, socket (conns s k) = true -> response (conns s k) = Some r -> step s (close k false s)
  (** the exceptions, and Client.idle_cleanup 1486-1505 *)
  | s_error : forall s k, step s (close k true s)
  | s_idle : forall s k, request (conns s k) = None -> response (conns s k) = None -> step s (close k false s).

  Definition init : st := mkS (fun _ => mkC [] None None [] Ready [] 0 0 false) new_request 0 [].
  Inductive run : st -> Prop :=
  | run_init : run init
  | run_step : forall s s', run s -> step s s' -> run s'.
End client.
