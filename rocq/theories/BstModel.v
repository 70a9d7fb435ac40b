(** Model of BlockStream, pyslet/blockstore.py lines 617-782, for one client.

    What is kept between two uses of a stream is the stream entity (size and md5) and a table of
    blocks.  Simplification: a row of the table holds the block's data, where the code has the
    block's hash key and StreamStore keeps the data under that key (C33 and C35 are about that);
    a block entity is represented by the index of its row, None for one not yet stored. *)
From Verif Require Import Py.

Record row := mkRow { r_num : Z; r_data : str }.
Record pers := mkP { p_rows : list row; p_size : nat; p_md5 : option str }.

Record bst := mkB {
  b_r : bool; b_w : bool;           (* readable, writable *)
  b_size : nat; b_pos : Z;
  b_data : option str; b_dirty : bool;
  b_num : Z; b_bpos : nat; b_top : nat;
  b_md5 : option (str * Z);         (* what was fed to hashlib.md5(), and _md5num *)
  b_blocks : list (option nat) }.

Inductive whence := SeekSet | SeekCur | SeekEnd.

(** l[i] and l[i] = v, for any integer i *)
Definition py_index {A} (l : list A) (i : Z) : res nat :=
  let n := Z.of_nat (length l) in
  if (0 <=? i) && (i <? n) then Ok (Z.to_nat i)
  else if (i <? 0) && (0 <=? n + i) then Ok (Z.to_nat (n + i))
  else Err IndexError.

(** lines 585-590: the rows in the order of their numbers *)
Fixpoint insert_row (x : nat * row) (l : list (nat * row)) : list (nat * row) :=
  match l with
  | nil => [x]
  | y :: t => if r_num (snd x) <=? r_num (snd y) then x :: l else y :: insert_row x t
  end.
Definition sort_rows (l : list (nat * row)) : list (nat * row) := fold_right insert_row nil l.
Definition retrieve_blocklist (rows : list row) : list (option nat) :=
  map (fun x => Some (fst x)) (sort_rows (combine (seq 0 (length rows)) rows)).

(** lines 592-593; a block entity that was never stored has no hash key *)
Definition retrieve_block (p : pers) (b : option nat) : res str :=
  match b with
  | None => Err TypeError
  | Some id => match nth_error (p_rows p) id with Some x => Ok (r_data x) | None => Err BlockMissing end
  end.

Section Bst.
  Variable digest : str -> str.     (* hashlib.md5 *)
  Variable bs : nat.                (* max_block_size *)

  (** lines 684-689 *)
  Definition btop_of (size : nat) (bnum : Z) : nat :=
    if Z.of_nat (size / bs) =? bnum then (size mod bs)%nat else bs.

  (** lines 691-716 *)
  Definition flush (s : bst) (p : pers) : res (bst * pers) :=
    if b_dirty s then
      match b_data s with
      | None => Err TypeError
      | Some buf =>
          let data := firstn (b_top s) buf in
          let! (blocks, rows, md5) :=
            match data with
            | nil => Ok (b_blocks s, p_rows p, b_md5 s)
            | _ =>
                let! i := py_index (b_blocks s) (b_num s) in
                let! b := get (b_blocks s) i in
                let '(blocks, rows) :=
                  match b with
                  | Some id => (b_blocks s, set_nth (p_rows p) id (mkRow (b_num s) data))
                  | None => (set_nth (b_blocks s) i (Some (length (p_rows p))),
                             p_rows p ++ [mkRow (b_num s) data])
                  end in
                Ok (blocks, rows,
                    match b_md5 s with
                    | Some (acc, n) => if b_num s =? n then Some (acc ++ data, n + 1) else None
                    | None => None
                    end)
            end in
          Ok (mkB (b_r s) (b_w s) (b_size s) (b_pos s) (b_data s) false (b_num s) (b_bpos s) (b_top s) md5 blocks,
              mkP rows (b_size s) (match md5 with Some (acc, _) => Some (digest acc) | None => None end))
      end
    else Ok (s, p).

  (** lines 667-682 *)
  Definition seek_to (s : bst) (p : pers) (pos : Z) : res (bst * pers) :=
    let num := pos / Z.of_nat bs in
    let! (s1, p1) :=
      if num =? b_num s then Ok (s, p)
      else
        let! (s1, p1) := flush s p in
        Ok (mkB (b_r s1) (b_w s1) (b_size s1) (b_pos s1) None (b_dirty s1) num (b_bpos s1) (b_top s1) (b_md5 s1) (b_blocks s1), p1) in
    Ok (mkB (b_r s1) (b_w s1) (b_size s1) pos (b_data s1) (b_dirty s1) (b_num s1)
            (Z.to_nat (pos mod Z.of_nat bs)) (btop_of (b_size s1) (b_num s1)) (b_md5 s1) (b_blocks s1), p1).
  Definition target (s : bst) (off : Z) (w : whence) : Z :=
    match w with
    | SeekSet => off
    | SeekCur => b_pos s + off
    | SeekEnd => Z.of_nat (b_size s) + off
    end.
  Definition seek (s : bst) (p : pers) (off : Z) (w : whence) : res (bst * pers) :=
    seek_to s p (target s off w).

  (** bytearray(block_size) with the block's data at the start *)
  Definition padded (data : str) : str := data ++ skipn (length data) (repeat 0 bs).

  Definition with_data (s : bst) (d : str) : bst :=
    mkB (b_r s) (b_w s) (b_size s) (b_pos s) (Some d) (b_dirty s) (b_num s) (b_bpos s) (b_top s) (b_md5 s) (b_blocks s).

  Definition load (s : bst) (p : pers) (pad : bool) : res (bst * str) :=
    match b_data s with
    | Some d => Ok (s, d)
    | None =>
        let! i := py_index (b_blocks s) (b_num s) in
        let! b := get (b_blocks s) i in
        let! data := retrieve_block p b in
        let d := if pad then padded data else data in
        Ok (with_data s d, d)
    end.

  (** lines 721-741: readinto a buffer of n bytes, giving what was read *)
  Definition readinto (s : bst) (p : pers) (n : nat) : res (bst * pers * str) :=
    if negb (b_r s) then Err IOError
    else
      let avail := (b_top s - b_bpos s)%nat in
      if (avail =? 0)%nat then Ok (s, p, nil)
      else
        let! (s1, d) := load s p (b_w s) in
        let k := Nat.min avail n in
        let out := slice (b_bpos s) (b_bpos s + k) d in
        let! (s2, p2) := seek s1 p (Z.of_nat k) SeekCur in
        Ok (s2, p2, out).

  (** lines 752-757: blocks of zeros up to block number num *)
  Fixpoint fill_blocks (n : nat) (blocks : list (option nat)) (rows : list row) (size : nat)
      : list (option nat) * list row * nat :=
    match n with
    | O => (blocks, rows, size)
    | S n' => fill_blocks n' (blocks ++ [Some (length rows)])
                          (rows ++ [mkRow (Z.of_nat (length blocks)) (repeat 0 bs)])
                          ((length blocks + 1) * bs)%nat
    end.

  (** lines 750-769: start a block after the last one *)
  Definition new_block (s : bst) (p : pers) : res (bst * pers) :=
    let '(blocks, rows, size0) :=
      fill_blocks (Z.to_nat (b_num s - Z.of_nat (length (b_blocks s)))) (b_blocks s) (p_rows p) (b_size s) in
    let! (s1, p1) := flush (mkB (b_r s) (b_w s) size0 (b_pos s) (Some (repeat 0 bs)) true (b_num s)
                              (b_bpos s) (b_top s) (b_md5 s) blocks) (mkP rows (p_size p) (p_md5 p)) in
    let size := Z.to_nat (b_pos s1) in
    Ok (mkB (b_r s1) (b_w s1) size (b_pos s1) (b_data s1) (negb (b_bpos s1 =? 0)%nat) (b_num s1) (b_bpos s1)
            (btop_of size (b_num s1)) (b_md5 s1) (b_blocks s1 ++ [None]), p1).

  (** lines 743-782 *)
  Definition write (s : bst) (p : pers) (b : str) : res (bst * pers * nat) :=
    if negb (b_w s) then Err IOError
    else
      let! (s1, p1, d) :=
        match b_data s with
        | Some d => Ok (s, p, d)
        | None =>
            if (b_top s =? 0)%nat
            then let! (s1, p1) := new_block s p in Ok (s1, p1, repeat 0 bs)
            else let! (s1, d) := load s p true in Ok (s1, p, d)
        end in
      let k := Nat.min (bs - b_bpos s) (length b) in
      let d' := slice_assign (b_bpos s1) (b_bpos s1 + k) (firstn k b) d in
      let size := if (b_pos s1 + Z.of_nat k >? Z.of_nat (b_size s1)) then Z.to_nat (b_pos s1 + Z.of_nat k) else b_size s1 in
      let top := if (b_pos s1 + Z.of_nat k >? Z.of_nat (b_size s1)) then btop_of size (b_num s1) else b_top s1 in
      let! (s2, p2) := seek (mkB (b_r s1) (b_w s1) size (b_pos s1) (Some d') true (b_num s1) (b_bpos s1)
                                 top (b_md5 s1) (b_blocks s1)) p1 (Z.of_nat k) SeekCur in
      Ok (s2, p2, k).

  (** lines 627-651.  Which of the characters r, w, + and a are in mode *)
  Record mode := mkM { m_r : bool; m_w : bool; m_plus : bool; m_a : bool }.
  Definition open_stream (p : pers) (m : mode) : res (bst * pers) :=
    let s0 := mkB (m_r m || m_plus m) (m_w m || m_plus m) (p_size p) 0 None false 0 0 0 None nil in
    if m_a m then
      let! (s1, p1) := seek s0 p (Z.of_nat (p_size p)) SeekSet in
      Ok (mkB (b_r s1) (b_w s1) (b_size s1) (b_pos s1) (b_data s1) (b_dirty s1) (b_num s1) (b_bpos s1)
              (b_top s1) (b_md5 s1) (retrieve_blocklist (p_rows p)), p1)
    else
      let! (s1, p1) := seek s0 p 0 SeekSet in
      if m_w m then
        Ok (mkB (b_r s1) (b_w s1) (b_size s1) (b_pos s1) (b_data s1) (b_dirty s1) (b_num s1) (b_bpos s1)
                (b_top s1) (Some (nil, 0)) nil, mkP nil (p_size p1) (p_md5 p1))
      else
        Ok (mkB (b_r s1) (b_w s1) (b_size s1) (b_pos s1) (b_data s1) (b_dirty s1) (b_num s1) (b_bpos s1)
                (b_top s1) (b_md5 s1) (retrieve_blocklist (p_rows p)), p1).

  (** close (lines 653-656) flushes; new_stream (lines 480-509) *)
  Definition new_stream : pers := mkP nil 0 (Some (digest nil)).
End Bst.
