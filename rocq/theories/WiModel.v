(** Reading the body of a request: pyslet/http/messages.py 143-184 [ChunkedReader], 187-393 [WSGIInputWrapper].
    The input stream is a type with a method read (a source); close() is left out, the size of the buffer that
    io.RawIOBase.readall uses does not matter for the result. *)
From Verif Require Import Py HttpModel HttpParamModel PagingModel MsgModel.

Definition zlen {A} (l : list A) : Z := Z.of_nat (length l).
Definition ztake {A} (n : Z) (l : list A) : list A := firstn (Z.to_nat n) l.
Definition zdrop {A} (n : Z) (l : list A) : list A := skipn (Z.to_nat n) l.

Inductive whence := SEEK_SET | SEEK_CUR | SEEK_END.
Definition DEFAULT_BUFFER_SIZE : Z := 8192.

Section Wrapper.
Variable source : Type.
Variable sread : Z -> source -> res (str * source).

(** 207-238: input_stream, inputLength, pos, the contents of buffer (its length is buffSize) and its position *)
Record wi := WI { stream : option source; input_length : option Z; pos : Z; buf : str; bpos : Z }.
Definition buff_size (w : wi) : Z := zlen (buf w).

(** 227-236: fill the buffer *)
Fixpoint fill (fuel : nat) (seek_size : Z) (b : str) (s : source) : res (option source * str) :=
  if zlen b <? seek_size then
    match fuel with
    | O => Err Timeout
    | S f =>
        let! (data, s') := sread (seek_size - zlen b) s in
        match data with [] => Ok (None, b) | _ => fill f seek_size (b ++ data) s' end
    end
  else Ok (Some s, b).
(** 207-238: the length is CONTENT_LENGTH unless the source is a ChunkedReader *)
Definition open_input (length_ : option Z) (seek_size : Z) (s : source) : res wi :=
  let seek_size := match length_ with Some n => if n <? seek_size then n else seek_size | None => seek_size end in
  let! (o, b) := fill (Z.to_nat seek_size) seek_size [] s in
  Ok (WI o length_ 0 b 0).

(** io.BytesIO.read *)
Definition buffer_read (n : Z) (w : wi) : str :=
  if n <? 0 then zdrop (bpos w) (buf w) else ztake n (zdrop (bpos w) (buf w)).
(** 249-269: read, for n other than -1 *)
Definition read_some (n : Z) (w : wi) : res (str * wi) :=
  let data := if negb (n =? 0) && (pos w <? buff_size w) then buffer_read n w else [] in
  let w := WI (stream w) (input_length w) (pos w + zlen data) (buf w) (bpos w + zlen data) in
  let n := n - zlen data in
  match stream w with
  | Some s =>
      if n =? 0 then Ok (data, w)
      else
        let n := match input_length w with
                 | Some l => if l <? pos w + n then l - pos w else n
                 | None => n
                 end in
        let! (idata, s') := sread n s in
        match idata with
        | [] => Ok (data, WI None (input_length w) (pos w) (buf w) (bpos w))
        | _ => Ok (data ++ idata, WI (Some s') (input_length w) (pos w + zlen idata) (buf w) (bpos w))
        end
  | None => Ok (data, w)
  end.
(** 326-334: readall *)
Fixpoint readall (fuel : nat) (w : wi) : res (str * wi) :=
  match fuel with
  | O => Err Timeout
  | S f =>
      let! (data, w') := read_some DEFAULT_BUFFER_SIZE w in
      match data with
      | [] => Ok ([], w')
      | _ => let! (rest, w'') := readall f w' in Ok (data ++ rest, w'')
      end
  end.
(** 240-269: read *)
Definition read (fuel : nat) (n : Z) (w : wi) : res (str * wi) :=
  if n =? -1 then readall fuel w else read_some n w.

(** 295-303: read and discard *)
Fixpoint skip (fuel : nat) (new_pos : Z) (w : wi) : res wi :=
  if pos w <? new_pos then
    match fuel with
    | O => Err Timeout
    | S f =>
        let n := new_pos - pos w in
        let n := if DEFAULT_BUFFER_SIZE <? n then DEFAULT_BUFFER_SIZE else n in
        let! (data, w') := read_some n w in
        match data with
        | [] => Ok w'
        | _ => skip f new_pos (WI (stream w') (input_length w') (pos w' + zlen data) (buf w') (bpos w'))
        end
    end
  else Ok w.
(** 271-305: seek; 374-375: tell; 307-312: seekable *)
Definition seek (offset : Z) (wh : whence) (w : wi) : res wi :=
  if buff_size w <? pos w then Err IOError
  else
    let! new_pos := match wh with
                    | SEEK_SET => Ok offset
                    | SEEK_CUR => Ok (pos w + offset)
                    | SEEK_END => match input_length w with Some l => Ok (l + offset) | None => Err IOError end
                    end in
    if new_pos <? 0 then Err IOError
    else if new_pos =? pos w then Ok w
    else if new_pos <=? buff_size w then Ok (WI (stream w) (input_length w) new_pos (buf w) new_pos)
    else
      let! w' := skip (Z.to_nat new_pos) new_pos w in
      Ok (WI (stream w') (input_length w') new_pos (buf w') (bpos w')).
Definition tell (w : wi) : Z := pos w.
Definition seekable (w : wi) : bool := negb (buff_size w <? pos w).

(** 345-358: readline *)
Fixpoint readline_loop (fuel : nat) (limit : Z) (line : str) (w : wi) : res (str * wi) :=
  if (limit <? 0) || (zlen line <? limit) then
    match fuel with
    | O => Err Timeout
    | S f =>
        let! (b, w') := read_some 1 w in
        match b with
        | [] => Ok (line, w')
        | _ => if str_eqb b [10] then Ok (line ++ b, w') else readline_loop f limit (line ++ b) w'
        end
    end
  else Ok (line, w).
Definition readline (fuel : nat) (limit : Z) (w : wi) : res (str * wi) := readline_loop fuel limit [] w.

(** 389-393 __iter__ and 360-372 readlines: the lines, until the total exceeds hint.  An empty line is not
    yielded and does not end the generator *)
Fixpoint readlines (fuel : nat) (hint total : Z) (w : wi) : res (list str * wi) :=
  match fuel with
  | O => Err Timeout
  | S f =>
      let! (line, w') := readline f (-1) w in
      match line with
      | [] => readlines f hint total w'
      | _ =>
          let total := total + zlen line in
          if (0 <=? hint) && (hint <? total) then Ok ([line], w')
          else let! (r, w'') := readlines f hint total w' in Ok (line :: r, w'')
      end
  end.
(** 336-343: readinto a buffer of size n; the items of bytes are integers, to which ord cannot be applied *)
Definition readinto (n : Z) (w : wi) : res (Z * wi) :=
  let! (data, w') := read_some n w in
  match data with [] => Ok (0, w') | _ => Err TypeError end.
End Wrapper.

(** * Input streams *)
(** A socket or a file: read(n) returns at most n bytes, fewer as it likes, none only at the end.  The schedule
    says how many are available at each call; after it, as many as asked for. *)
Definition raw := (list nat * str)%type.
Definition raw_read (n : Z) (s : raw) : res (str * raw) :=
  if n <? 0 then Ok (snd s, (fst s, []))
  else match fst s with
       | [] => Ok (ztake n (snd s), ([], zdrop n (snd s)))
       | k :: ks => let m := Z.min n (Z.of_nat (S k)) in Ok (ztake m (snd s), (ks, zdrop m (snd s)))
       end.

(** 143-148: ChunkedReader: what is left of its source, chunk_left, eof *)
Record cr := CR { src : str; chunk_left : Z; eof : bool }.
(** readline of the source *)
Fixpoint src_line (s : str) : str * str :=
  match s with
  | [] => ([], [])
  | c :: r => if c =? 10 then ([c], r) else let '(a, b) := src_line r in (c :: a, b)
  end.
(** 156-162: the trailer, up to a blank line *)
Fixpoint skip_trailer (fuel : nat) (s : str) : res str :=
  match fuel with
  | O => Err Timeout
  | S f => let '(l, r) := src_line s in match bstrip l with [] => Ok r | _ => skip_trailer f r end
  end.
(** 150-162: _read_chunksize *)
Definition read_chunksize (c : cr) : res cr :=
  let s := if chunk_left c =? 0 then snd (src_line (src c)) else src c in
  let '(l, s) := src_line s in
  let! ws := words_of (bstrip l) true in
  match fst (parse_token ws) with
  | None => Err TypeError
  | Some t =>
      match int16 t with
      | None => Err ValueError
      | Some n =>
          if n =? 0 then let! s := skip_trailer (S (length s)) s in Ok (CR s 0 true)
          else Ok (CR s n (eof c))
      end
  end.
(** 173-184: readinto, and io.RawIOBase.read for n >= 0: what is read.  A source that ends within a chunk is left
    out. *)
Definition cr_readinto (n : Z) (c : cr) : res (str * cr) :=
  let! c := (if (chunk_left c <=? 0) && negb (eof c) then read_chunksize c else Ok c) in
  if (chunk_left c <=? 0) && eof c then Ok ([], c)
  else
    let nbytes := if chunk_left c <? n then chunk_left c else n in
    if zlen (src c) <? nbytes then Err Unmodelled
    else Ok (ztake nbytes (src c), CR (zdrop nbytes (src c)) (chunk_left c - nbytes) (eof c)).
Fixpoint cr_readall (fuel : nat) (c : cr) : res (str * cr) :=
  match fuel with
  | O => Err Timeout
  | S f =>
      let! (d, c') := cr_readinto DEFAULT_BUFFER_SIZE c in
      match d with [] => Ok ([], c') | _ => let! (r, c'') := cr_readall f c' in Ok (d ++ r, c'') end
  end.
Definition cr_read (n : Z) (c : cr) : res (str * cr) :=
  if n <? 0 then cr_readall (S (length (src c))) c else cr_readinto n c.
