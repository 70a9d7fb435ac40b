(** What a user of BufferedStreamWrapper relies on, in terms of calls and results only. *)
From Verif Require Import Py BswModel.

(** the bytes handed out by the read calls of a history, in order *)
Definition read_data (h : list (bop * bret)) : str :=
  concat (map (fun c => match c with (BRead _, QData s) => s | _ => nil end) h).

(** no successful or failing seek took place *)
Definition no_seek (os : list bop) : Prop := forall o w, ~ In (BSeek o w) os.

(** a file: contents and a position; the reference behaviour of a seekable stream *)
Definition file_op (content : str) (pos : Z) (o : bop) : Z * bret :=
  let at_pos n := firstn n (skipn (Z.to_nat pos) content) in
  match o with
  | BTell => (pos, QPos pos)
  | BRead n => (pos + Z.of_nat (length (at_pos n)), QData (at_pos n))
  | BPeek n => (pos, QData (at_pos n))
  | BSeek off whence =>
      let target := if whence =? 0 then off
                    else if whence =? 1 then pos + off
                    else Z.of_nat (length content) + off in
      if (whence =? 0) || (whence =? 1) || (whence =? 2)
      then (target, QDone) else (pos, QValueError)
  end.
Fixpoint file_ops (content : str) (pos : Z) (os : list bop) : list (bop * bret) :=
  match os with
  | nil => nil
  | o :: r => let (p, q) := file_op content pos o in (o, q) :: file_ops content p r
  end.

(** no seek goes before the start of the file *)
Fixpoint seeks_ok (content : str) (pos : Z) (os : list bop) : Prop :=
  match os with
  | nil => True
  | o :: r => 0 <= fst (file_op content pos o) /\ seeks_ok content (fst (file_op content pos o)) r
  end.
