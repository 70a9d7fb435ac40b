(** What a stream should look like (C36): a file of bytes with a position, where one call of read
    or write stays within a block of bs bytes; and what the tables hold for a stream with
    contents c. *)
From Verif Require Import Py BstModel.
From Coq Require Import Permutation.

Section Spec.
  Variable digest : str -> str.
  Variable bs : nat.

  (** bytes k*bs to (k+1)*bs of the contents *)
  Definition chunk (k : nat) (c : str) : str := firstn bs (skipn (k * bs) c).

  (** The tables hold the stream c: one row for each chunk of c that has any bytes, numbered, in
      any order, and no other rows; the size of c; and no checksum other than that of c. *)
  Definition stored (p : pers) (c : str) : Prop :=
    (exists n, Permutation (p_rows p) (map (fun k => mkRow (Z.of_nat k) (chunk k c)) (seq 0 n))
               /\ forall k, (k < n <-> k * bs < length c)%nat)
    /\ p_size p = length c
    /\ (p_md5 p = None \/ p_md5 p = Some (digest c)).

  Record file := mkF { f_data : str; f_pos : nat }.

  (** the bytes w in place of those at q; bytes between the end and q are zero *)
  Definition overwrite (c : str) (q : nat) (w : str) : str :=
    firstn q (c ++ repeat 0 (q - length c)) ++ w ++ skipn (q + length w) c.

  Inductive op := ORead (n : nat) | OWrite (b : str) | OSeek (off : Z) (w : whence) | OTell | OFlush.
  Inductive ans := AData (d : str) | ACount (n : nat) | APos (z : Z) | ADone | AFail (e : exn).

  (** bytes left in the block *)
  Definition room (q : nat) : nat := (bs - q mod bs)%nat.

  (** What a call does to a file opened with r (readable) and w (writable).  None: the claim does
      not say, for a seek before the start or beyond the block that the end is in, and for the
      writing of no bytes beyond the end. *)
  Definition f_step (r w : bool) (f : file) (o : op) : option (file * ans) :=
    let c := f_data f in
    let q := f_pos f in
    match o with
    | ORead n =>
        if r then
          let k := Nat.min n (Nat.min (room q) (length c - q)) in
          Some (mkF c (q + k), AData (firstn k (skipn q c)))
        else Some (f, AFail IOError)
    | OWrite b =>
        if w then
          let v := firstn (room q) b in
          if (length v =? 0)%nat && (length c <? q)%nat then None
          else Some (mkF (overwrite c q v) (q + length v), ACount (length v))
        else Some (f, AFail IOError)
    | OSeek off wh =>
        let t := match wh with
                 | SeekSet => off
                 | SeekCur => Z.of_nat q + off
                 | SeekEnd => Z.of_nat (length c) + off
                 end in
        if (0 <=? t) && (Z.to_nat t / bs <=? length c / bs)%nat
        then Some (mkF c (Z.to_nat t), ADone) else None
    | OTell => Some (f, APos (Z.of_nat q))
    | OFlush => Some (f, ADone)
    end.
  Fixpoint f_run (r w : bool) (f : file) (ops : list op) : option (file * list ans) :=
    match ops with
    | nil => Some (f, nil)
    | o :: t => match f_step r w f o with
                | None => None
                | Some (f1, a) => match f_run r w f1 t with
                                  | None => None
                                  | Some (f2, l) => Some (f2, a :: l)
                                  end
                end
    end.

  (** the same calls on the BlockStream; an exception is an answer and the stream stays as it was *)
  Definition s_step (s : bst) (p : pers) (o : op) : bst * pers * ans :=
    match o with
    | ORead n => match readinto digest bs s p n with Ok (s', p', d) => (s', p', AData d) | Err e => (s, p, AFail e) end
    | OWrite b => match write digest bs s p b with Ok (s', p', k) => (s', p', ACount k) | Err e => (s, p, AFail e) end
    | OSeek off wh => match seek digest bs s p off wh with Ok (s', p') => (s', p', ADone) | Err e => (s, p, AFail e) end
    | OTell => (s, p, APos (b_pos s))
    | OFlush => match flush digest s p with Ok (s', p') => (s', p', ADone) | Err e => (s, p, AFail e) end
    end.
  Fixpoint s_run (s : bst) (p : pers) (ops : list op) : bst * pers * list ans :=
    match ops with
    | nil => (s, p, nil)
    | o :: t => let '(s1, p1, a) := s_step s p o in
                let '(s2, p2, l) := s_run s1 p1 t in (s2, p2, a :: l)
    end.
End Spec.
