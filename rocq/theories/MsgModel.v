(** Model of HTTP messages: pyslet/http/messages.py, class Message (396-1500), Request (1545-1620) and
    Response (1760-1925), Python 3.  Header names and values are bytes.  The gzip transfer-coding is not
    modelled ([Unmodelled] where the code would use zlib).  [bufsize] is io.DEFAULT_BUFFER_SIZE. *)
From Verif Require Import Py Num UriModel HttpModel HttpParamModel BswModel.

(** grammar.py: CRLF *)
Definition CRLF : str := [13; 10].

(** ** Python's bytes methods (standard library) *)
(** the white space of bytes.strip and bytes.split *)
Definition is_bspace (c : Z) : bool := zin c [32; 9; 10; 11; 12; 13].
Fixpoint blstrip (s : str) : str :=
  match s with c :: r => if is_bspace c then blstrip r else s | [] => [] end.
Definition bstrip (s : str) : str := rev (blstrip (rev (blstrip s))).
(** s.split(): the runs that are not white space; [w] is the current run *)
Fixpoint bsplit_go (w s : str) : list str :=
  match s with
  | [] => match w with [] => [] | _ => [w] end
  | c :: r => if is_bspace c then match w with [] => bsplit_go [] r | _ => w :: bsplit_go [] r end
              else bsplit_go (w ++ [c]) r
  end.
Definition bsplit (s : str) : list str := bsplit_go [] s.
(** s.split(c, 1) where c is in s *)
Fixpoint bsplit1 (c : Z) (s : str) : option (str * str) :=
  match s with
  | [] => None
  | x :: r => if x =? c then Some ([], r) else match bsplit1 c r with Some (a, b) => Some (x :: a, b) | None => None end
  end.
(** s[:-n] *)
Definition drop_last (n : nat) (s : str) : str := firstn (length s - n) s.
(** s.find(sub) *)
Fixpoint is_prefix (p s : str) : bool :=
  match p, s with
  | [], _ => true
  | x :: p', y :: s' => (x =? y) && is_prefix p' s'
  | _, [] => false
  end.
Fixpoint find (sub s : str) : option nat :=
  if is_prefix sub s then Some O
  else match s with [] => None | _ :: r => match find sub r with Some i => Some (S i) | None => None end end.
(** s.split(CRLF) *)
Fixpoint split_crlf (s : str) : list str :=
  match s with
  | [] => [[]]
  | c :: r =>
    match c, r with
    | 13, 10 :: r' => [] :: split_crlf r'
    | _, _ => match split_crlf r with h :: t => (c :: h) :: t | [] => [[c]] end
    end
  end.
(** sep.join(l) *)
Fixpoint joinb (sep : str) (l : list str) : str :=
  match l with [] => [] | [x] => x | x :: r => x ++ sep ++ joinb sep r end.
(** int(b): white space, a sign, digits with single underscores between them *)
Fixpoint int_digits (prev : bool) (acc : Z) (s : str) : option Z :=
  match s with
  | [] => if prev then Some acc else None
  | c :: r => if is_digit c then int_digits true (acc * 10 + (c - 48)) r
              else if (c =? 95) && prev then int_digits false acc r else None
  end.
Definition py_int (s : str) : res Z :=
  match (match bstrip s with
         | 45 :: r => option_map Z.opp (int_digits false 0 r)
         | 43 :: r => int_digits false 0 r
         | r => int_digits false 0 r
         end) with
  | Some n => Ok n
  | None => Err ValueError
  end.

(** ** Headers: a dictionary from the lower case name to [name, value, value...] *)
Definition headers := list (str * (str * list str)).
Fixpoint h_find (k : str) (hs : headers) : option (str * list str) :=
  match hs with [] => None | (k', v) :: r => if str_eqb k k' then Some v else h_find k r end.
Fixpoint h_put (k : str) (v : str * list str) (hs : headers) : headers :=
  match hs with
  | [] => [(k, v)]
  | (k', w) :: r => if str_eqb k k' then (k', v) :: r else (k', w) :: h_put k v r
  end.
Fixpoint h_del (k : str) (hs : headers) : headers :=
  match hs with [] => [] | (k', w) :: r => if str_eqb k k' then r else (k', w) :: h_del k r end.
(** 1095-1099 *)
Definition has_header (hs : headers) (name : str) : bool :=
  match h_find (b_lower name) hs with Some _ => true | None => false end.
(** 1101-1124 *)
Definition get_header_list (hs : headers) (name : str) : option (list str) :=
  match h_find (b_lower name) hs with Some (_, vs) => Some vs | None => None end.
Definition get_header (hs : headers) (name : str) : option str :=
  match h_find (b_lower name) hs with Some (_, vs) => Some (joinb (lit ", ") vs) | None => None end.
(** 1126-1154 *)
Definition set_header (hs : headers) (name : str) (value : option str) (append_mode : bool) : headers :=
  let key := b_lower name in
  match value with
  | None => h_del key hs
  | Some v =>
    match h_find key hs, append_mode with
    | Some (n, vs), true => h_put key (n, vs ++ [bstrip v]) hs
    | _, _ => h_put key (name, [bstrip v]) hs
    end
  end.
(** 1088-1093 *)
Fixpoint ins_key (x : str) (l : list str) : list str :=
  match l with [] => [x] | y :: r => if str_ltb y x then y :: ins_key x r else x :: l end.
Definition get_headerlist (hs : headers) : list str := fold_right ins_key [] (map fst hs).

(** 1462-1473 *)
Fixpoint check_te (chunked : bool) (l : list tencoding) : res unit :=
  match l with
  | [] => Ok tt
  | te :: r =>
    if chunked then Err ProtocolError
    else check_te (str_eqb (te_token te) (lit "chunked")) r
  end.
(** 1475-1486 *)
Definition get_transfer_encoding (hs : headers) : res (option (list tencoding)) :=
  match get_header hs (lit "Transfer-Encoding") with
  | None => Ok None
  | Some v => let! l := te_list_from_str v in let! _ := check_te false l in Ok (Some l)
  end.
(** 1296-1305 *)
Definition get_content_length (hs : headers) : res (option Z) :=
  match get_header hs (lit "Content-Length") with
  | None => Ok None
  | Some v => let! n := py_int (bstrip v) in Ok (Some n)
  end.
(** 1307-1313 *)
Definition set_content_length (hs : headers) (n : Z) : headers :=
  set_header hs (lit "Content-Length") (Some (dec_str n)) false.
(** 1376-1386 *)
Definition get_content_type (hs : headers) : res (option mediatype) :=
  match get_header hs (lit "Content-Type") with
  | None => Ok None
  | Some v => let! m := mt_from_str v in Ok (Some m)
  end.
(** grammar.py 714-731 [parse_tokenlist] *)
Fixpoint tokenlist (ws : list word) : res (list str) :=
  match ws with
  | WStr (c :: t) :: r =>
      if is_separator c then Ok []
      else let! a := ascii (c :: t) in let! l := tokenlist r in Ok (a :: l)
  | WByte b :: r => if b =? 44 then tokenlist r else Ok []
  | _ => Ok []
  end.
(** 1226-1236; the set as a list *)
Definition get_connection (hs : headers) : res (list str) :=
  match get_header hs (lit "Connection") with
  | None | Some [] => Ok []
  | Some v => let! ws := words_of v true in let! l := tokenlist ws in Ok (map b_lower l)
  end.
(** HTTPVersion's order: params.py 160-207 *)
Definition version_le (a b : http_version) : bool :=
  (fst a <? fst b) || ((fst a =? fst b) && (snd a <=? snd b)).

(** ** Receiving *)
(** 683-689 *)
Inductive rmode := START | HEADER | CHUNK_HEAD | DATA | BLOCKED | CHUNK_END | CHUNK_TRAILER.
(** a request, or a response and whether the method of its request is HEAD *)
Inductive rkind := KReq | KResp (head : bool).

(** The attributes of a message that is being received.  [r_out]: what entity_body has accepted; [r_ws], [r_fl]
    say how it will answer: an entry None of [r_ws] is a write that is blocked, Some k one that accepts at most
    k+1 bytes, and an entry true of [r_fl] is a flush that is blocked; used up, nothing is blocked.
    [r_buf] is recv_buffer ([] for None).  [r_bound]: tboundary, [r_bmatch]: tboundary_match. *)
Record rmsg := mkR {
  r_kind : rkind; r_mode : option rmode;
  r_method : str; r_uri : str; r_status : Z; r_reason : str; r_proto : option http_version;
  r_headers : headers; r_curr : option (str * str);
  r_chunked : bool; r_len : option Z; r_pos : Z; r_bound : option str; r_bmatch : list nat;
  r_keep : bool; r_buf : str; r_out : str; r_ws : list (option nat); r_fl : list bool }.

Definition set_mode (m : rmsg) (x : option rmode) : rmsg :=
  mkR (r_kind m) x (r_method m) (r_uri m) (r_status m) (r_reason m) (r_proto m) (r_headers m) (r_curr m)
      (r_chunked m) (r_len m) (r_pos m) (r_bound m) (r_bmatch m) (r_keep m) (r_buf m) (r_out m) (r_ws m) (r_fl m).
Definition set_heads (m : rmsg) (hs : headers) (c : option (str * str)) : rmsg :=
  mkR (r_kind m) (r_mode m) (r_method m) (r_uri m) (r_status m) (r_reason m) (r_proto m) hs c
      (r_chunked m) (r_len m) (r_pos m) (r_bound m) (r_bmatch m) (r_keep m) (r_buf m) (r_out m) (r_ws m) (r_fl m).
Definition set_frame (m : rmsg) (ch : bool) (len : option Z) (pos : Z) (b : option str) (bm : list nat) : rmsg :=
  mkR (r_kind m) (r_mode m) (r_method m) (r_uri m) (r_status m) (r_reason m) (r_proto m) (r_headers m) (r_curr m)
      ch len pos b bm (r_keep m) (r_buf m) (r_out m) (r_ws m) (r_fl m).
Definition set_io (m : rmsg) (buf out : str) (ws : list (option nat)) (fl : list bool) : rmsg :=
  mkR (r_kind m) (r_mode m) (r_method m) (r_uri m) (r_status m) (r_reason m) (r_proto m) (r_headers m) (r_curr m)
      (r_chunked m) (r_len m) (r_pos m) (r_bound m) (r_bmatch m) (r_keep m) buf out ws fl.
Definition set_start (m : rmsg) (me u : str) (st : Z) (re : str) (p : option http_version) : rmsg :=
  mkR (r_kind m) (r_mode m) me u st re p (r_headers m) (r_curr m)
      (r_chunked m) (r_len m) (r_pos m) (r_bound m) (r_bmatch m) (r_keep m) (r_buf m) (r_out m) (r_ws m) (r_fl m).
Definition set_keep (m : rmsg) (k : bool) : rmsg :=
  mkR (r_kind m) (r_mode m) (r_method m) (r_uri m) (r_status m) (r_reason m) (r_proto m) (r_headers m) (r_curr m)
      (r_chunked m) (r_len m) (r_pos m) (r_bound m) (r_bmatch m) k (r_buf m) (r_out m) (r_ws m) (r_fl m).

(** 446-476 and 691-719: a new message, after start_receiving.  recv_buffer has no value before the first data;
    here it is empty. *)
Definition new_msg (k : rkind) (ws : list (option nat)) (fl : list bool) : rmsg :=
  mkR k (Some START) [] [] 0 [] None [] None false None 0 None [] true [] [] ws fl.
(** 691-719 and 1889-1892: start_receiving again, before any data were written to the entity body *)
Definition start_receiving (m : rmsg) : rmsg :=
  mkR (r_kind m) (Some START) (r_method m) (r_uri m) 0 [] (r_proto m) [] None false None 0 None [] (r_keep m)
      (r_buf m) (r_out m) (r_ws m) (r_fl m).

(** 721-729 and 731-781 *)
Definition RECV_HEADERS : Z := -3.
Definition RECV_LINE : Z := -2.
Definition RECV_ALL : Z := -1.
Definition recv_mode (m : rmsg) : option Z :=
  match r_mode m with
  | Some DATA => Some (match r_len m with
                       | Some n => if n =? 0 then RECV_ALL else n - r_pos m
                       | None => RECV_ALL
                       end)
  | Some BLOCKED => Some 0
  | Some HEADER | Some CHUNK_TRAILER => Some RECV_HEADERS
  | Some _ => Some RECV_LINE
  | None => None
  end.

(** 1595-1609 [Request.recv_start]: ValueError (and its subclasses) are turned into ProtocolError *)
Definition as_protocol {A} (r : res A) : res A :=
  match r with
  | Err TypeError => Err TypeError
  | Err _ => Err ProtocolError
  | Ok a => Ok a
  end.
Definition request_start (m : rmsg) (line : str) : res rmsg :=
  match bsplit (drop_last 2 line) with
  | [a; u; v] =>
      let method := b_upper a in
      as_protocol (let! _ := check_token method in
                   let! p := version_from_str v in
                   Ok (set_start m method u (r_status m) (r_reason m) (Some p)))
  | _ => Err ProtocolError
  end.
(** 1894-1904 [Response.recv_start]; grammar.py 914-928 [parse_remainder] *)
Definition word_bytes (w : word) : str := match w with WByte b => [b] | WStr s => s end.
Definition response_start (m : rmsg) (line : str) : res rmsg :=
  let! ws := words_of (drop_last 2 line) false in
  let (p, ws) := match require_http_version ws with Ok (v, r) => (Some v, r) | Err _ => (None, ws) end in
  let! (o, ws) := parse_integer (parse_sp ws) in
  let status := match o with Some n => n | None => 0 end in
  let reason := concat (map word_bytes (parse_sp ws)) in
  Ok (set_start m (r_method m) (r_uri m) status reason p).
Definition recv_start (m : rmsg) (line : str) : res rmsg :=
  match r_kind m with KReq => request_start m line | KResp _ => response_start m line end.

(** 904-929 [_recv_header] *)
Definition end_header (hs : headers) (c : option (str * str)) : headers :=
  match c with Some (n, v) => set_header hs n (Some (drop_last 2 v)) true | None => hs end.
Definition recv_header (m : rmsg) (h : str) : res rmsg :=
  if str_eqb h CRLF then Ok (set_heads m (end_header (r_headers m) (r_curr m)) None)
  else
    match parse_lws h, r_curr m with
    | Some _, Some (n, v) => Ok (set_heads m (r_headers m) (Some (n, v ++ h)))
    | _, _ =>
      match bsplit1 58 h with
      | Some (n, v) => Ok (set_heads m (end_header (r_headers m) (r_curr m)) (Some (n, v)))
      | None => Err ProtocolError
      end
    end.
Fixpoint recv_lines (m : rmsg) (l : list str) : res rmsg :=
  match l with [] => Ok m | h :: r => let! m := recv_header m h in recv_lines m r end.

(** 1021-1044: the codings before the last *)
Fixpoint check_decoders (l : list tencoding) : res unit :=
  match l with
  | [] => Ok tt
  | te :: r =>
    if str_eqb (te_token te) (lit "gzip") then Err Unmodelled
    else if str_eqb (te_token te) (lit "identity") then check_decoders r
    else Err NotImplementedError
  end.
(** 2125-2165, 2169: MULTIPART_BYTERANGES_RANGE.match_media_type *)
Definition is_byteranges (t : mediatype) : bool :=
  str_eqb (u_lower (mt_type t)) (lit "multipart") && str_eqb (u_lower (mt_subtype t)) (lit "byteranges").
(** 997-1078 [Message.recv_transferlength] *)
Definition message_recv_transferlength (m : rmsg) : res rmsg :=
  let! encoding := get_transfer_encoding (r_headers m) in
  let identity := match encoding with
                  | Some [te] => str_eqb (te_token te) (lit "identity")
                  | Some _ => false
                  | None => true
                  end in
  match encoding, identity with
  | Some l, false =>
      match rev l with
      | [] => Err IndexError
      | te :: r =>
          let! _ := check_decoders r in
          Ok (set_frame m (str_eqb (te_token te) (lit "chunked")) None (r_pos m) (r_bound m) (r_bmatch m))
      end
  | _, _ =>
      let! cl := get_content_length (r_headers m) in
      match cl with
      | Some n => Ok (set_frame m false (Some n) (r_pos m) (r_bound m) (r_bmatch m))
      | None =>
          let! ct := get_content_type (r_headers m) in
          match ct with
          | Some t =>
              if is_byteranges t then
                let! _ := get_connection (r_headers m) in
                match mt_getitem t (lit "boundary") with
                | Ok b => Ok (set_keep (set_frame m false None (r_pos m) (Some (CRLF ++ lit "--" ++ bstrip b ++ lit "--")) []) false)
                | Err _ => Err ProtocolError
                end
              else Ok (set_frame m false None (r_pos m) (r_bound m) (r_bmatch m))
          | None => Ok (set_frame m false None (r_pos m) (r_bound m) (r_bmatch m))
          end
      end
  end.
(** 1857-1860, 1907-1911: a response that has no body *)
Definition bodyless (status : Z) (head : bool) : bool :=
  (status / 100 =? 1) || (status =? 204) || (status =? 304) || head.
(** 1611-1617 [Request.recv_transferlength], 1906-1918 [Response.recv_transferlength] *)
Definition recv_transferlength (m : rmsg) : res rmsg :=
  match r_kind m with
  | KReq =>
      let! m := message_recv_transferlength m in
      match r_len m, r_chunked m with
      | None, false => Ok (set_frame m false (Some 0) (r_pos m) (r_bound m) (r_bmatch m))
      | _, _ => Ok m
      end
  | KResp head =>
      if bodyless (r_status m) head then Ok (set_frame m false (Some 0) (r_pos m) (r_bound m) (r_bmatch m))
      else message_recv_transferlength m
  end.
(** 976-995 [Message.handle_headers] *)
Definition handle_headers (m : rmsg) : res rmsg :=
  let! ct := get_content_type (r_headers m) in
  let! _ := match ct with
            | Some t => if str_eqb (mt_type t) (lit "multipart") then
                          match mt_getitem t (lit "boundary") with Ok _ => Ok tt | Err _ => Err ProtocolError end
                        else Ok tt
            | None => Ok tt
            end in
  let! connection := get_connection (r_headers m) in
  match r_proto m with
  | None => Err TypeError
  | Some p =>
      if version_le p (1, 0) || existsb (str_eqb (lit "close")) connection then Ok (set_keep m false) else Ok m
  end.

(** 931-950: the loop that writes recv_buffer *)
Fixpoint write_loop (fuel : nat) (buf out : str) (ws : list (option nat)) : str * str * list (option nat) :=
  match buf with
  | [] => ([], out, ws)
  | _ =>
    match fuel with
    | O => (buf, out, ws)
    | S f =>
      match ws with
      | None :: l => (buf, out, l)
      | Some k :: l => write_loop f (skipn (S k) buf) (out ++ firstn (S k) buf) l
      | [] => ([], out ++ buf, [])
      end
    end
  end.
(** 963-971, 874-882: flush, and what follows *)
Definition flush_then (m : rmsg) : rmsg :=
  match r_fl m with
  | true :: l => set_mode (set_io m (r_buf m) (r_out m) (r_ws m) l) (Some BLOCKED)
  | false :: l => set_mode (set_io m (r_buf m) (r_out m) (r_ws m) l) None
  | [] => set_mode m None
  end.
(** 931-974 [_recv_buffered] *)
Definition recv_buffered (m : rmsg) : res rmsg :=
  let '(buf, out, ws) := write_loop (length (r_buf m)) (r_buf m) (r_out m) (r_ws m) in
  let m := set_io m buf out ws (r_fl m) in
  match buf with
  | _ :: _ => Ok (set_mode m (Some BLOCKED))
  | [] =>
    if r_chunked m then
      match r_len m with
      | Some n => Ok (set_mode m (Some (if n <=? r_pos m then CHUNK_END else DATA)))
      | None => Err TypeError
      end
    else
      match r_len m with
      | None => Ok (set_mode m (Some DATA))
      | Some n => if n <=? r_pos m then Ok (flush_then m) else Ok (set_mode m (Some DATA))
      end
  end.

(** 829-841: the matches in progress, when the next byte is c; and whether one is complete *)
Fixpoint match_step (bd : str) (c : Z) (ms : list nat) : bool * list nat :=
  match ms with
  | [] => (false, [])
  | p :: r =>
    if nth p bd (-1) =? c then
      if (length bd <=? S p)%nat then (true, r)
      else let (f, r') := match_step bd c r in (f, S p :: r')
    else match_step bd c r
  end.
(** 822-847: how many bytes of data end at the end of the boundary, if it ends here *)
Fixpoint scan (bd : str) (ms : list nat) (data : str) : option nat * list nat :=
  match data with
  | [] => (None, ms)
  | c :: r =>
    match match_step bd c ms with
    | (true, _) => (Some 1%nat, [])
    | (false, ms') =>
        let ms'' := if hd (-1) bd =? c then ms' ++ [1%nat] else ms' in
        let (o, e) := scan bd ms'' r in
        (option_map S o, e)
    end
  end.
(** 820-867: data (not empty) in DATA_MODE *)
Definition recv_data (m : rmsg) (data : str) : res rmsg :=
  let m :=
    match r_bound m with
    | None => m
    | Some bd =>
      match scan bd (r_bmatch m) data with
      | (Some i, _) => set_frame m (r_chunked m) (Some (r_pos m + Z.of_nat i)) (r_pos m) None []
      | (None, ms) => set_frame m (r_chunked m) (r_len m) (r_pos m) (r_bound m) ms
      end
    end in
  let pos := r_pos m + Z.of_nat (length data) in
  let m := set_frame m (r_chunked m) (r_len m) pos (r_bound m) (r_bmatch m) in
  let buf := match r_len m with
             | Some n => if n =? 0 then r_buf m
                         else if n <? pos then drop_last (Z.to_nat (pos - n)) data else data
             | None => data
             end in
  recv_buffered (set_io m buf (r_out m) (r_ws m) (r_fl m)).

(** What recv is called with: a line, a list of lines, data, None *)
Inductive input := ILine (s : str) | ILines (l : list str) | IData (s : str) | INone.

(** 783-892 [recv], but for handle_message.  The second flush (887-888) comes after one that was not blocked, or
    when nothing was written, and is not blocked.  An input that is not what recv_mode asks for is an error. *)
Definition recv (m : rmsg) (i : input) : res rmsg :=
  match r_mode m, i with
  | Some START, ILine data =>
      if str_eqb data CRLF then Ok m
      else let! m := recv_start m data in Ok (set_mode m (Some HEADER))
  | Some HEADER, ILines l =>
      let! m := recv_lines m l in
      let! m := recv_transferlength m in
      let m := if r_chunked m then set_mode m (Some CHUNK_HEAD)
               else match r_len m with
                    | None => set_mode (set_frame m false None 0 (r_bound m) (r_bmatch m)) (Some DATA)
                    | Some n =>
                        if n =? 0 then set_mode (set_frame m false (Some 0) 0 (r_bound m) (r_bmatch m)) None
                        else set_mode (set_frame m false (Some n) 0 (r_bound m) (r_bmatch m)) (Some DATA)
                    end in
      handle_headers m
  | Some CHUNK_HEAD, ILine data =>
      let! c := chunk_from_str (drop_last 2 data) in
      let m := set_frame m (r_chunked m) (Some (c_size c)) 0 (r_bound m) (r_bmatch m) in
      Ok (set_mode m (Some (if c_size c =? 0 then CHUNK_TRAILER else DATA)))
  | Some DATA, IData (c :: data) => recv_data m (c :: data)
  (* 866-867: the name of the attribute is misspelt *)
  | Some DATA, IData [] => Ok m
  | Some DATA, INone => Ok m
  | Some BLOCKED, _ => recv_buffered m
  | Some CHUNK_END, ILine data =>
      if str_eqb data CRLF then Ok (set_mode m (Some CHUNK_HEAD)) else Err ProtocolError
  | Some CHUNK_TRAILER, ILines l => let! m := recv_lines m l in Ok (flush_then m)
  | None, _ => Err HTTPException
  | _, _ => Err TypeError
  end.

(** ** The client's connection: pyslet/http/client.py 815-948 [_recv_task] *)
(** The response that is being received, recv_buffer, what socket.recv will give (packets; the server hangs up
    after the last), and whether the next thing to do is to call socket.recv.  A blocked socket.recv changes
    nothing and is left out; so are errors of the socket. *)
Record conn := mkC { c_msg : rmsg; c_buf : list str; c_in : list str; c_recv : bool }.
Inductive outcome :=
| Next (c : conn)          (* the loop goes round *)
| Complete (c : conn)      (* 855-857: the response is complete *)
| Closed (c : conn)        (* 843-847: the server hung up *)
| Failed (e : exn).

(** 863-864, 888-889...: what is left of the data after a line *)
Definition rebuffer (data : str) : list str := match data with [] => [] | _ => [data] end.
(** client.py 2027-2032 [ClientResponse.finished], called by handle_message when the message is complete *)
Definition finished (m : rmsg) : rmsg :=
  match r_mode m with
  | None => if (100 <=? r_status m) && (r_status m <=? 199) && negb (r_status m =? 101)
            then start_receiving m else m
  | Some _ => m
  end.
(** self.response.recv *)
Definition give (c : conn) (buf : list str) (i : input) : outcome :=
  match recv (c_msg c) i with
  | Err e => Failed e
  | Ok m => Next (mkC (finished m) buf (c_in c) false)
  end.
Definition conn_step (c : conn) : outcome :=
  if c_recv c then
    (* 818-847 *)
    match c_in c with
    | [] => Closed c
    | p :: l => Next (mkC (c_msg c) (c_buf c ++ [p]) l false)
    end
  else
    let wait := Next (mkC (c_msg c) (c_buf c) (c_in c) true) in
    match recv_mode (c_msg c) with
    | None => Complete c
    | Some n =>
      if n =? RECV_HEADERS then
        let data := concat (c_buf c) in
        match find CRLF data with
        | None => wait
        | Some O => give c (rebuffer (skipn 2 data)) (ILines [CRLF])
        | Some (S _) =>
          match find (CRLF ++ CRLF) data with
          | None => wait
          | Some pos => give c (rebuffer (skipn (pos + 4) data))
                          (ILines (map (fun l => l ++ CRLF) (split_crlf (firstn (pos + 2) data))))
          end
        end
      else if n =? RECV_LINE then
        let data := concat (c_buf c) in
        match find CRLF data with
        | None => wait
        | Some pos => give c (rebuffer (skipn (pos + 2) data)) (ILine (firstn (pos + 2) data))
        end
      else if n =? RECV_ALL then
        match c_buf c with
        | [] => wait
        | data :: r => give c r (IData data)
        end
      else if n =? 0 then give c (c_buf c) INone
      else if 0 <? n then
        match c_buf c with
        | [] => wait
        | data :: r =>
            if (Z.of_nat (length data) <=? n) then give c r (IData data)
            else give c (skipn (Z.to_nat n) data :: r) (IData (firstn (Z.to_nat n) data))
        end
      else Failed RuntimeError
    end.
(** 336-372: _recv_task is called again and again, until the response is complete or the connection is closed *)
Inductive ends : conn -> outcome -> Prop :=
| en_last : forall c o, conn_step c = o -> (forall c', o <> Next c') -> ends c o
| en_next : forall c c' o, conn_step c = Next c' -> ends c' o -> ends c o.
(** what has been received and not used, and what is still to be received *)
Definition unread (c : conn) : str := concat (c_buf c) ++ concat (c_in c).
(** 303-309, 355-365: the client begins to wait for a response; [head]: whether the method was HEAD, [buf]: what is left
    of what was received before *)
Definition client (head : bool) (ws : list (option nat)) (fl : list bool) (buf packets : list str) : conn :=
  mkC (new_msg (KResp head) ws fl) buf packets true.
(** 355-365: the next of the responses that are waiting *)
Definition next_response (c : conn) (m : rmsg) : conn := mkC m (c_buf c) (c_in c) true.

(** ** Sending *)
Inductive skind :=
| SReq (method : str)
| SResp (status : Z) (req_method : str) (req_proto self_proto : http_version).
(** The attributes of a message that is being sent.  [s_body]: entity_body, [s_tbody]: whether transferbody is
    entity_body or None, [s_proto]: send_protocol. *)
Record smsg := mkS {
  s_kind : skind; s_headers : headers; s_body : option source; s_blen : option Z; s_keep : bool;
  s_proto : option http_version; s_chunked : bool; s_len : option Z; s_tbody : bool; s_pos : Z; s_done : bool }.
Definition s_set_headers (m : smsg) (hs : headers) : smsg :=
  mkS (s_kind m) hs (s_body m) (s_blen m) (s_keep m) (s_proto m) (s_chunked m) (s_len m) (s_tbody m) (s_pos m) (s_done m).
Definition s_set_frame (m : smsg) (ch : bool) (len : option Z) (tb : bool) : smsg :=
  mkS (s_kind m) (s_headers m) (s_body m) (s_blen m) (s_keep m) (s_proto m) ch len tb (s_pos m) (s_done m).
Definition s_set_keep (m : smsg) (k : bool) : smsg :=
  mkS (s_kind m) (s_headers m) (s_body m) (s_blen m) k (s_proto m) (s_chunked m) (s_len m) (s_tbody m) (s_pos m) (s_done m).
Definition s_set_body (m : smsg) (b : option source) (n : option Z) : smsg :=
  mkS (s_kind m) (s_headers m) b n (s_keep m) (s_proto m) (s_chunked m) (s_len m) (s_tbody m) (s_pos m) (s_done m).
Definition s_set_pos (m : smsg) (b : option source) (pos : Z) (done : bool) : smsg :=
  mkS (s_kind m) (s_headers m) b (s_blen m) (s_keep m) (s_proto m) (s_chunked m) (s_len m) (s_tbody m) pos done.

(** 446-474: what the entity body was given as *)
Inductive body := NoBody | Bytes (b : str) | Stream (s : source).
Definition new_smsg (k : skind) (hs : headers) (b : body) : smsg :=
  match b with
  | NoBody => mkS k hs None None true None false None false 0 false
  | Bytes d => mkS k hs (Some (mkSrc d [])) (Some (Z.of_nat (length d))) true None false None false 0 false
  | Stream s => mkS k hs (Some s) None true None false None false 0 false
  end.

(** 585-598: the codings *)
Fixpoint check_encoders (l : list tencoding) : res unit :=
  match l with
  | [] => Ok tt
  | te :: r =>
    if str_eqb (te_token te) (lit "gzip") then Err Unmodelled
    else if str_eqb (te_token te) (lit "identity") then check_encoders r
    else if str_eqb (te_token te) (lit "chunked") then Ok tt
    else Err NotImplementedError
  end.
Definition old_protocol (p : option http_version) : bool :=
  match p with None => true | Some v => version_le v (1, 0) end.
Definition has_body (m : smsg) : bool := match s_body m with Some _ => true | None => false end.
(** 600-625: no transfer-coding *)
Definition send_length (m : smsg) (content_length : option Z) : res smsg :=
  match content_length with
  | Some n =>
      match s_blen m with
      | Some b => if b =? n then Ok (s_set_frame m false (Some n) (has_body m)) else Err HTTPException
      | None => Ok (s_set_frame m false (Some n) (has_body m))
      end
  | None =>
      match s_blen m with
      | Some b => Ok (s_set_frame (s_set_headers m (set_content_length (s_headers m) b)) false (Some b) (has_body m))
      | None =>
          if negb (has_body m) then Ok (s_set_frame m false (Some 0) false)
          else if old_protocol (s_proto m) then Ok (s_set_frame m false None true)
          else Ok (s_set_frame (s_set_headers m (set_header (s_headers m) (lit "Transfer-Encoding") (Some (lit "chunked")) false))
                               true None true)
      end
  end.
(** 549-625 [Message.send_transferlength] *)
Definition message_send_transferlength (m : smsg) : res smsg :=
  let! encoding := get_transfer_encoding (s_headers m) in
  let! content_length := get_content_length (s_headers m) in
  match encoding with
  | None => send_length m content_length
  | Some l =>
      if old_protocol (s_proto m) then
        send_length (s_set_headers m (set_header (s_headers m) (lit "Transfer-Encoding") None false)) content_length
      else
        match content_length with
        | Some _ => Err HTTPException
        | None =>
            match rev l with
            | [] => Err IndexError
            | te :: r =>
                let! _ := match r with [] => Ok tt | _ => check_encoders l end in
                Ok (s_set_frame m (str_eqb (te_token te) (lit "chunked")) None (has_body m))
            end
        end
  end.
(** 1561-1593 [Request.send_transferlength]; [maxra] is MAX_READAHEAD.  Of a BufferedStreamWrapper that holds all
    the data (length is not None) only the data are kept. *)
Definition request_send_transferlength (maxra : Z) (method : str) (m : smsg) : res smsg :=
  let! m := message_send_transferlength m in
  if existsb (str_eqb (b_upper method)) [lit "GET"; lit "HEAD"; lit "DELETE"] then
    match s_len m with
    | None => Err HTTPException
    | Some n => if 0 <? n then Err HTTPException else Ok m
    end
  else
    match s_len m with
    | Some n =>
        if n =? 0 then
          let! cl := get_content_length (s_headers m) in
          match cl with
          | None => Ok (s_set_headers m (set_content_length (s_headers m) 0))
          | Some _ => Ok m
          end
        else Ok m
    | None =>
        if s_chunked m then Ok m
        else
          match s_body m with
          | None => Err AttributeError
          | Some src =>
              match init_bsw maxra src with
              | None => Err Timeout
              | Some w =>
                  match b_length w with
                  | Some n => message_send_transferlength (s_set_body m (Some (mkSrc (b_bytes w) [])) (Some n))
                  | None => Err HTTPException
                  end
              end
          end
    end.
(** 1857-1890 [Response.send_transferlength] *)
Definition response_send_transferlength (status : Z) (req_method : str) (req_proto self_proto : http_version)
  (m : smsg) : res smsg :=
  if bodyless status (str_eqb req_method (lit "HEAD")) then
    if has_body m && negb (match s_blen m with Some 0 => true | _ => false end) then Err HTTPException
    else Ok (s_set_frame m false (Some 0) false)
  else
    let rest (m : smsg) :=
      if has_body m then message_send_transferlength m
      else Ok (s_set_frame (s_set_headers m (set_content_length (s_headers m) 0)) false (Some 0) false) in
    if version_le req_proto (1, 0) || version_le self_proto (1, 0) then
      let! encoding := get_transfer_encoding (s_headers m) in
      let m := match encoding with
               | None | Some [] => m
               | Some _ => s_set_headers m (set_header (s_headers m) (lit "Transfer-Encoding") None false)
               end in
      let! cl := get_content_length (s_headers m) in
      match cl, s_blen m, has_body m with
      | None, None, true => Ok (s_set_keep (s_set_frame m false None true) false)
      | _, _, _ => rest m
      end
    else rest m.
Definition send_transferlength (maxra : Z) (m : smsg) : res smsg :=
  match s_kind m with
  | SReq method => request_send_transferlength maxra method m
  | SResp st rm rp sp => response_send_transferlength st rm rp sp m
  end.
(** 497-528 [start_sending], the first time *)
Definition start_sending (maxra : Z) (protocol : option http_version) (m : smsg) : res smsg :=
  let m := mkS (s_kind m) (s_headers m) (s_body m) (s_blen m)
             (match protocol with Some v => if version_le v (1, 0) then false else s_keep m | None => s_keep m end)
             protocol (s_chunked m) (s_len m) (s_tbody m) (s_pos m) (s_done m) in
  let! m := send_transferlength maxra m in
  let m := s_set_pos m (s_body m) 0 false in
  let m := match s_chunked m, s_len m with false, None => s_set_keep m false | _, _ => m end in
  Ok (if s_keep m then m
      else s_set_headers m (set_header (s_headers m) (lit "Connection") (Some (lit "close")) false)).
(** 534-547 [send_header] *)
Definition header_lines (hs : headers) : str :=
  concat (map (fun k => match h_find k hs with
                        | Some (n, vs) => concat (map (fun v => n ++ lit ": " ++ v ++ CRLF) vs)
                        | None => []
                        end) (get_headerlist hs)) ++ CRLF.
Definition send_header (maxra : Z) (m : smsg) : res (smsg * str) :=
  let! m := send_transferlength maxra m in
  Ok (m, header_lines (s_headers m)).
(** 627-680 [send_body]; None where the body is blocked *)
Definition send_body (bufsize : nat) (m : smsg) : res (option str * smsg) :=
  if s_done m then Ok (Some [], m)
  else
    match s_tbody m, s_body m with
    | true, Some src =>
      if s_chunked m then
        match src_read src bufsize with
        | (None, src') => Ok (None, s_set_pos m (Some src') (s_pos m) false)
        | (Some data, src') =>
            let pos := s_pos m + Z.of_nat (length data) in
            match data with
            | _ :: _ =>
                let! h := chunk_to_bytes (mkchunk (Z.of_nat (length data)) []) in
                Ok (Some (h ++ CRLF ++ data ++ CRLF), s_set_pos m (Some src') pos false)
            | [] =>
                let! h := chunk_to_bytes (mkchunk 0 []) in
                Ok (Some (h ++ CRLF ++ CRLF), s_set_pos m (Some src') pos true)
            end
        end
      else
        let chunklen := match s_len m with
                        | None => Z.of_nat bufsize
                        | Some n => Z.min (n - s_pos m) (Z.of_nat bufsize)
                        end in
        if chunklen =? 0 then Ok (Some [], s_set_pos m (Some src) (s_pos m) true)
        else
          (* read(n) with n < 0 reads all *)
          match src_read src (if chunklen <? 0 then length (s_rest src) else Z.to_nat chunklen) with
          | (None, src') => Ok (None, s_set_pos m (Some src') (s_pos m) false)
          | (Some data, src') =>
              match data with
              | _ :: _ => Ok (Some data, s_set_pos m (Some src') (s_pos m + Z.of_nat (length data)) false)
              | [] => Ok (Some [], s_set_pos m (Some src') (s_pos m) true)
              end
          end
    | _, _ => Ok (Some [], s_set_pos m (s_body m) (s_pos m) true)
    end.
(** client.py 303-333, server.py 550-564: send_body until it has no more; [fuel] bounds the calls *)
Fixpoint send_all (fuel : nat) (bufsize : nat) (m : smsg) : res (str * smsg) :=
  match fuel with
  | O => Err Timeout
  | S f =>
      let! (o, m) := send_body bufsize m in
      match o with
      | None => send_all f bufsize m
      | Some [] => Ok ([], m)
      | Some data => let! (w, m) := send_all f bufsize m in Ok (data ++ w, m)
      end
  end.
(** 1554-1559, 1619-1624 [Request.send_start]; 1839-1855 [Response.send_start] *)
Definition request_line (method uri : str) (p : http_version) : str :=
  method ++ [32] ++ uri ++ [32] ++ version_to_bytes p ++ CRLF.
Definition status_line (p : http_version) (status : Z) (reason : str) : str :=
  version_to_bytes p ++ [32] ++ dec_str status ++ [32] ++ reason ++ CRLF.
