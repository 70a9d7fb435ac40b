(** Model of BufferedStreamWrapper, pyslet/streams.py lines 50-160, over an arbitrary
    source. *)
From Verif Require Import Py.

(** The source: the bytes it still has to give, and how it will cut them up.  An entry
    [None] of the schedule is a blocked read (None), [Some k] a read that gives at most
    k+1 bytes; when the schedule is used up reads give as much as they are asked for.
    An empty answer to a non-empty request only happens at the end of file. *)
Record source := mkSrc { s_rest : str; s_sched : list (option nat) }.

(** src.read(n) *)
Definition src_read (s : source) (n : nat) : option str * source :=
  match s_sched s with
  | None :: l => (None, mkSrc (s_rest s) l)
  | Some k :: l =>
      let m := Nat.min n (S k) in
      (Some (firstn m (s_rest s)), mkSrc (skipn m (s_rest s)) l)
  | nil => (Some (firstn n (s_rest s)), mkSrc (skipn n (s_rest s)) nil)
  end.

(** attributes of the wrapper; [b_bytes], [b_bpos]: contents and position of self.buff *)
Record bsw := mkBsw {
  b_src : source; b_bytes : str; b_bpos : nat; b_overflow : bool; b_pos : Z }.

Definition b_size (w : bsw) : Z := Z.of_nat (length (b_bytes w)).      (* self.bsize *)

(** __init__, lines 79-102: the loop; [fuel] bounds the reads that give data *)
Fixpoint fill (fuel : nat) (buffsize : Z) (s : source) (buff : str) : option (source * str * bool) :=
  let nbytes := buffsize - Z.of_nat (length buff) in
  if nbytes <=? 0 then Some (s, buff, true)
  else
    match src_read s (Z.to_nat nbytes) with
    | (None, s') => Some (s', buff, true)
    | (Some nil, s') => Some (s', buff, false)
    | (Some data, s') =>
        match fuel with
        | O => None
        | S f => fill f buffsize s' (buff ++ data)
        end
    end.

Definition init_bsw (buffsize : Z) (s : source) : option bsw :=
  match fill (Z.to_nat buffsize) buffsize s nil with
  | Some (s', buff, ov) => Some (mkBsw s' buff 0 ov 0)
  | None => None
  end.

(** length attribute, lines 101-102 *)
Definition b_length (w : bsw) : option Z := if b_overflow w then None else Some (b_size w).

Inductive bop :=
| BRead (n : nat)                  (* readinto(b), len(b) = n *)
| BPeek (n : nat)
| BSeek (offset : Z) (whence : Z)
| BTell.

Inductive bret :=
| QData (s : str)                  (* readinto: the count len(s), s stored; peek: s *)
| QBlocked                         (* None *)
| QPos (p : Z)
| QDone
| QUnsupported | QValueError.

(** self.buff.read(n) *)
Definition buff_read (w : bsw) (n : nat) : str := firstn n (skipn (b_bpos w) (b_bytes w)).

(** tell 113-117, seek 119-132, readinto 134-149, peek 151-160 *)
Definition bsw_op (w : bsw) (o : bop) : bsw * bret :=
  match o with
  | BTell => if b_overflow w then (w, QUnsupported) else (w, QPos (b_pos w))
  | BSeek offset whence =>
      if b_overflow w then (w, QUnsupported)
      else
        let go p :=
          (* self.pos is assigned before self.buff.seek raises for a negative position *)
          if p <? 0 then (mkBsw (b_src w) (b_bytes w) (b_bpos w) (b_overflow w) p, QValueError)
          else (mkBsw (b_src w) (b_bytes w) (Z.to_nat p) (b_overflow w) p, QDone) in
        if whence =? 0 then go offset
        else if whence =? 1 then go (b_pos w + offset)
        else if whence =? 2 then go (b_size w + offset)
        else (w, QValueError)
  | BRead n =>
      if b_pos w <? b_size w then
        let data := buff_read w n in
        (mkBsw (b_src w) (b_bytes w) (b_bpos w + length data) (b_overflow w)
               (b_pos w + Z.of_nat (length data)), QData data)
      else if b_overflow w then
        match src_read (b_src w) n with
        | (None, s') => (mkBsw s' (b_bytes w) (b_bpos w) (b_overflow w) (b_pos w), QBlocked)
        | (Some data, s') =>
            (mkBsw s' (b_bytes w) (b_bpos w) (b_overflow w) (b_pos w + Z.of_nat (length data)),
             QData data)
        end
      else (w, QData nil)
  | BPeek n =>
      if b_pos w <? b_size w then
        let data := buff_read w n in
        if b_pos w <? 0 then
          (* self.buff.seek raises, the buffer's position has moved *)
          (mkBsw (b_src w) (b_bytes w) (b_bpos w + length data) (b_overflow w) (b_pos w), QValueError)
        else (mkBsw (b_src w) (b_bytes w) (Z.to_nat (b_pos w)) (b_overflow w) (b_pos w), QData data)
      else (w, QData nil)
  end.

Fixpoint bsw_ops (w : bsw) (os : list bop) : bsw * list (bop * bret) :=
  match os with
  | nil => (w, nil)
  | o :: r => let (w1, q) := bsw_op w o in let (w2, qs) := bsw_ops w1 r in (w2, (o, q) :: qs)
  end.
