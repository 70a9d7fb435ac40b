(** Model of FileBlockStore, pyslet/blockstore.py lines 114-187, over a POSIX file system
    shared by any number of clients (threads of any number of processes) which may be
    stopped for ever at any point between two file system calls. *)
From Verif Require Import Py.

(** Paths below self.dpath, as lists of names (vfs.py OSFilePath.join, lines 964-976) *)
Definition path := list str.
Definition str_dec : forall a b : str, {a = b} + {a <> b} := list_eq_dec Z.eq_dec.
Definition path_dec : forall a b : path, {a = b} + {a <> b} := list_eq_dec str_dec.

Inductive node := NDir | NFile (data : str).
Definition fs := path -> option node.
Definition fset (f : fs) (p : path) (n : option node) : fs :=
  fun q => if path_dec q p then n else f q.

(** the system calls used, through vfs.py OSFilePath lines 1045-1083 *)
Definition is_dir (f : fs) (p : path) : bool := match f p with Some NDir => true | _ => false end.
Definition exists_ (f : fs) (p : path) : bool := match f p with Some _ => true | None => false end.
Definition sys_mkdir (f : fs) (p : path) : option fs :=        (* os.mkdir *)
  if is_dir f (removelast p) && negb (exists_ f p) then Some (fset f p (Some NDir)) else None.
Definition sys_create (f : fs) (p : path) : option fs :=       (* open(p, "wb") *)
  if is_dir f (removelast p) && negb (is_dir f p) then Some (fset f p (Some (NFile nil))) else None.
Definition sys_append (f : fs) (p : path) (s : str) : option fs :=   (* write(2) *)
  match f p with Some (NFile w) => Some (fset f p (Some (NFile (w ++ s)))) | _ => None end.
Definition sys_rename (f : fs) (a b : path) : option fs :=     (* os.rename, atomic *)
  match f a with
  | Some (NFile w) =>
      if is_dir f (removelast b) && negb (is_dir f b)
      then Some (fset (fset f a None) b (Some (NFile w))) else None
  | _ => None
  end.
Definition sys_remove (f : fs) (p : path) : option fs :=       (* os.remove *)
  match f p with Some (NFile _) => Some (fset f p None) | _ => None end.
Definition sys_read (f : fs) (p : path) : option str :=        (* open(p, "rb").read() *)
  match f p with Some (NFile w) => Some w | _ => None end.

(** lines 149-150, 172, 181: where the block with a key is *)
Definition block_dir (k : str) : path := [slice 0 2 k; slice 2 4 k].
Definition block_path (k : str) : path := [slice 0 2 k; slice 2 4 k; skipn 4 k].

(** lines 156-159: the temporary file of a client for a key.  The prefix "magic_ident_",
    different for different threads and processes, is represented by the client's number *)
Definition tmp_dir : path := [lit "tmp"].
Definition tmp_path (c : nat) (k : str) : path := [lit "tmp"; Z.of_nat c :: firstn 32 k].

Inductive op := OStore (d : str) | ORetrieve (k : str) | ODelete (k : str).
Inductive ret := VKey (k : str) | VData (d : str) | VNone | VBlockSize | VBlockMissing | VOSError.

(** where a client is, inside a call *)
Inductive cl :=
| Idle
| SOpen (d : str)                  (* line 160 *)
| SWrite (d rest : str)            (* line 161, [rest] not yet written *)
| SParent (d : str)                (* line 162 *)
| SMk1 (d : str)                   (* line 164: os.makedirs, the first level *)
| SMk2 (d : str)                   (* the second level *)
| SMove (d : str)                  (* line 168 *)
| RRead (k : str)                  (* line 174 *)
| DRemove (k : str)                (* line 184 *)
| Dead.

Inductive event :=
| ECall (c : nat) (o : op)
| ERet (c : nat) (v : ret)
| ERemoved (k : str).              (* os.remove took away the block with key k *)

Inductive label :=
| LCall (c : nat) (o : op)
| LRun (c : nat) (n : nat)         (* next system call; n: how many bytes write(2) takes *)
| LFail (c : nat)                  (* the next system call of a store fails (disk full, ...) *)
| LCrash (c : nat).                (* the client never runs again *)

Record sys := mkSys { s_fs : fs; s_cl : nat -> cl }.
Definition cupd (f : nat -> cl) (c : nat) (v : cl) : nat -> cl :=
  fun c' => if Nat.eqb c' c then v else f c'.

Section Fbs.
  Variable hash : str -> str.        (* lines 81-84: hexdigest of the data *)
  Variable max_block : Z.

  (** store lines 147-155, retrieve 172-173 and 178, delete 181-182: up to the first system
      call that may change anything *)
  Definition call (f : fs) (o : op) : cl * option ret :=
    match o with
    | OStore d =>
        if exists_ f (block_path (hash d)) then (Idle, Some (VKey (hash d)))
        else if max_block <? Z.of_nat (length d) then (Idle, Some VBlockSize)
        else (SOpen d, None)
    | ORetrieve k =>
        if exists_ f (block_path k) then (RRead k, None) else (Idle, Some VBlockMissing)
    | ODelete k =>
        if exists_ f (block_path k) then (DRemove k, None) else (Idle, Some VNone)
    end.

  (** one system call.  An OSError from open, write or rename is raised to the caller; one
      from makedirs (lines 163-167) or remove (lines 183-187) is ignored.  Making a directory
      that exists is an error, ignored, so that the existence test in os.makedirs is left out *)
  Definition run1 (f : fs) (c : nat) (n : nat) (st : cl) : option (fs * cl * option ret * list event) :=
    match st with
    | SOpen d =>
        match sys_create f (tmp_path c (hash d)) with
        | Some f' => Some (f', SWrite d d, None, nil)
        | None => Some (f, Idle, Some VOSError, nil)
        end
    | SWrite d nil => Some (f, SParent d, None, nil)          (* close *)
    | SWrite d rest =>
        match sys_append f (tmp_path c (hash d)) (firstn n rest) with
        | Some f' => Some (f', SWrite d (skipn n rest), None, nil)
        | None => Some (f, Idle, Some VOSError, nil)
        end
    | SParent d => Some (f, if exists_ f (block_dir (hash d)) then SMove d else SMk1 d, None, nil)
    | SMk1 d =>
        match sys_mkdir f (removelast (block_dir (hash d))) with
        | Some f' => Some (f', SMk2 d, None, nil)
        | None => Some (f, SMk2 d, None, nil)
        end
    | SMk2 d =>
        match sys_mkdir f (block_dir (hash d)) with
        | Some f' => Some (f', SMove d, None, nil)
        | None => Some (f, SMove d, None, nil)
        end
    | SMove d =>
        match sys_rename f (tmp_path c (hash d)) (block_path (hash d)) with
        | Some f' => Some (f', Idle, Some (VKey (hash d)), nil)
        | None => Some (f, Idle, Some VOSError, nil)
        end
    | RRead k =>
        match sys_read f (block_path k) with
        | Some d => Some (f, Idle, Some (VData d), nil)
        | None => Some (f, Idle, Some VOSError, nil)
        end
    | DRemove k =>
        match sys_remove f (block_path k) with
        | Some f' => Some (f', Idle, Some VNone, [ERemoved k])
        | None => Some (f, Idle, Some VNone, nil)
        end
    | Idle | Dead => None
    end.

  Definition evret (c : nat) (r : option ret) : list event :=
    match r with Some v => [ERet c v] | None => nil end.

  Definition in_store (st : cl) : bool :=
    match st with SOpen _ | SWrite _ _ | SMove _ => true | _ => false end.

  Definition step (s : sys) (l : label) : option (sys * list event) :=
    match l with
    | LCall c o =>
        match s_cl s c with
        | Idle =>
            let (st, r) := call (s_fs s) o in
            Some (mkSys (s_fs s) (cupd (s_cl s) c st), ECall c o :: evret c r)
        | _ => None
        end
    | LRun c n =>
        match run1 (s_fs s) c n (s_cl s c) with
        | Some (f', st, r, ev) => Some (mkSys f' (cupd (s_cl s) c st), ev ++ evret c r)
        | None => None
        end
    | LFail c =>
        if in_store (s_cl s c)
        then Some (mkSys (s_fs s) (cupd (s_cl s) c Idle), [ERet c VOSError]) else None
    | LCrash c => Some (mkSys (s_fs s) (cupd (s_cl s) c Dead), nil)
    end.

  (** lines 130-144: an empty directory in which __init__ made tmp *)
  Definition init_fs : fs := fset (fset (fun _ => None) nil (Some NDir)) tmp_dir (Some NDir).
  Definition init : sys := mkSys init_fs (fun _ => Idle).

  Inductive run : list event -> sys -> Prop :=
  | run_nil : run nil init
  | run_step : forall tr s l s' ev, run tr s -> step s l = Some (s', ev) -> run (tr ++ ev) s'.

  Fixpoint exec (s : sys) (ls : list label) : option (sys * list event) :=
    match ls with
    | nil => Some (s, nil)
    | l :: r =>
        match step s l with
        | None => None
        | Some (s1, e1) =>
            match exec s1 r with Some (s2, e2) => Some (s2, e1 ++ e2) | None => None end
        end
    end.
End Fbs.
