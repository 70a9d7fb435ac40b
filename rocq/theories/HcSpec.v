(** What the properties of the HTTP client speak of: functions of the history (latest event first). *)
From Verif Require Import HcModel.

(** the requests that were started on the connection k and have no complete response yet, oldest first *)
Fixpoint awaiting (k : nat) (l : list event) : list nat :=
  match l with
  | [] => []
  | Start j r _ :: l => if j =? k then awaiting k l ++ [r] else awaiting k l
  | Answered j _ _ _ :: l => if j =? k then tl (awaiting k l) else awaiting k l
  | Closed j :: l | Switched j :: l => if j =? k then [] else awaiting k l
  | _ :: l => awaiting k l
  end.
(** the bytes that were given to the socket of k, since it was opened *)
Fixpoint wire (k : nat) (l : list event) : bytes :=
  match l with
  | [] => []
  | Sent j _ d :: l => if j =? k then wire k l ++ d else wire k l
  | Closed j :: l | Dropped j :: l => if j =? k then [] else wire k l
  | _ :: l => wire k l
  end.
(** the messages of the requests that were started for the socket of k *)
Fixpoint messages (k : nat) (l : list event) : bytes :=
  match l with
  | [] => []
  | Start j _ m :: l => if j =? k then messages k l ++ m else messages k l
  | Closed j :: l | Dropped j :: l => if j =? k then [] else messages k l
  | _ :: l => messages k l
  end.
(** since the request r was last started: were bytes of it sent?  did the server begin to answer? *)
Fixpoint bytes_sent (r : nat) (l : list event) : bool :=
  match l with
  | [] => false
  | Start _ q _ :: l => if q =? r then false else bytes_sent r l
  | Sent _ q _ :: l => if q =? r then true else bytes_sent r l
  | _ :: l => bytes_sent r l
  end.
Fixpoint answer_begun (r : nat) (l : list event) : bool :=
  match l with
  | [] => false
  | Start _ q _ :: l => if q =? r then false else answer_begun r l
  | Status _ q _ :: l => if q =? r then true else answer_begun r l
  | _ :: l => answer_begun r l
  end.
(** how often r was started; queued (by the user, or after a redirection or challenge); queued again because of a failure *)
Definition starts (r : nat) (l : list event) : nat := length (filter (fun e => match e with Start _ q _ => q =? r | _ => false end) l).
Definition queued (r : nat) (l : list event) : nat := length (filter (fun e => match e with Queued _ q => q =? r | _ => false end) l).
Definition retried (r : nat) (l : list event) : nat := length (filter (fun e => match e with Retried _ q => q =? r | _ => false end) l).
(** no error was reported for a request that was still being sent *)
Definition no_early_error (l : list event) : Prop := forall k r n, In (Answered k r n true) l -> n < 300.
(** the server has sent a status line for r *)
Definition seen (r n : nat) (l : list event) : Prop := exists k, In (Status k r n) l.
