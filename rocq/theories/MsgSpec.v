(** What C72-C78 speak of: the text of an HTTP message (RFC 2616 sections 3.6, 4.1-4.4, 6.1). *)
From Verif Require Import Py Num HttpSpec.

Definition crlf : str := [13; 10].
Definition no_crlf (s : str) : Prop := forall a b, s <> a ++ crlf ++ b.

(** ** Header fields.  A field is its name, the first line of its value, and the lines that continue it. *)
Record field := mkF { f_name : str; f_first : str; f_more : list str }.
Definition field_ok (f : field) : Prop :=
  token (f_name f) /\ no_crlf (f_first f) /\
  Forall (fun p => no_crlf p /\ exists c r, p = c :: r /\ ws c) (f_more f).
Definition field_text (f : field) : str :=
  f_name f ++ lit ":" ++ f_first f ++ crlf ++ concat (map (fun p => p ++ crlf) (f_more f)).
Definition field_raw (f : field) : str := f_first f ++ concat (map (fun p => crlf ++ p) (f_more f)).
(** [v] is [s] without the white space around it *)
Definition white (c : Z) : Prop := c = 32 \/ 9 <= c <= 13.
Definition trimmed (s v : str) : Prop :=
  exists a b, s = a ++ v ++ b /\ Forall white a /\ Forall white b /\
    (forall c r, v = c :: r -> ~ white c) /\ (forall c r, v = r ++ [c] -> ~ white c).
(** names are the same but for the case of ASCII letters *)
Definition to_lower (c : Z) : Z := if (65 <=? c) && (c <=? 90) then c + 32 else c.
Definition lower (s : str) : str := map to_lower s.
(** the values that the fields called [name] have, in order *)
Inductive values (name : str) : list field -> list str -> Prop :=
| vs_nil : values name [] []
| vs_same : forall f fs v vs, lower (f_name f) = lower name -> trimmed (field_raw f) v ->
    values name fs vs -> values name (f :: fs) (v :: vs)
| vs_other : forall f fs vs, lower (f_name f) <> lower name -> values name fs vs -> values name (f :: fs) vs.

(** ** The chunked coding, RFC 2616 3.6.1.  A parameter is written ;name=value, perhaps with white space before
    the name *)
Definition param := (str * (str * str))%type.
Definition param_ok (p : param) : Prop :=
  Forall ws (fst p) /\ token (fst (snd p)) /\ token (snd (snd p)).
Definition param_text (p : param) : str := lit ";" ++ fst p ++ fst (snd p) ++ lit "=" ++ snd (snd p).
Definition hex_digit (c v : Z) : Prop :=
  (48 <= c <= 57 /\ v = c - 48) \/ (65 <= c <= 70 /\ v = c - 55) \/ (97 <= c <= 102 /\ v = c - 87).
Inductive hex_number : str -> Z -> Prop :=
| hx_one : forall c v, hex_digit c v -> hex_number [c] v
| hx_more : forall s n c v, hex_number s n -> hex_digit c v -> hex_number (s ++ [c]) (16 * n + v).
Definition size_line (l : str) (n : Z) : Prop :=
  exists h exts, hex_number h n /\ Forall param_ok exts /\ l = h ++ concat (map param_text exts).
(** a body, the header fields that come after it, and how they may be sent *)
Inductive chunked : str -> list field -> str -> Prop :=
| ch_last : forall l trailer, size_line l 0 -> Forall field_ok trailer ->
    chunked [] trailer (l ++ crlf ++ concat (map field_text trailer) ++ crlf)
| ch_chunk : forall l d b trailer w, d <> [] -> size_line l (Z.of_nat (length d)) -> chunked b trailer w ->
    chunked (d ++ b) trailer (l ++ crlf ++ d ++ crlf ++ w).

(** ** The length of a message, RFC 2616 4.4 *)
Definition has_no_body (status : Z) (head : bool) : Prop :=
  100 <= status <= 199 \/ status = 204 \/ status = 304 \/ head = true.
Inductive framing :=
| Empty            (* no body *)
| Chunked          (* the chunked coding *)
| Length (n : Z)   (* a number of bytes *)
| UntilClose.      (* all that there is until the connection is closed *)
(** what the header fields say *)
Inductive fields_framing (fs : list field) : framing -> Prop :=
| fr_chunked : forall te, values (lit "Transfer-Encoding") fs [te] -> lower te = lit "chunked" -> fields_framing fs Chunked
| fr_length : forall d, values (lit "Transfer-Encoding") fs [] -> values (lit "Content-Length") fs [d] ->
    d <> [] -> Forall dec_digit d -> fields_framing fs (Length (decimal d))
| fr_close : values (lit "Transfer-Encoding") fs [] -> values (lit "Content-Length") fs [] -> fields_framing fs UntilClose.
Inductive response_framing (status : Z) (head : bool) (fs : list field) : framing -> Prop :=
| rf_empty : has_no_body status head -> response_framing status head fs Empty
| rf_fields : forall f, ~ has_no_body status head -> fields_framing fs f -> response_framing status head fs f.
Inductive request_framing (fs : list field) : framing -> Prop :=
| qf_fields : forall f, fields_framing fs f -> f <> UntilClose -> request_framing fs f
| qf_none : fields_framing fs UntilClose -> request_framing fs Empty.
(** a body, the fields after it, and the bytes they are sent as *)
Definition framed (f : framing) (body : str) (trailer : list field) (wire : str) : Prop :=
  match f with
  | Empty => body = [] /\ trailer = [] /\ wire = []
  | Chunked => chunked body trailer wire
  | Length n => Z.of_nat (length body) = n /\ trailer = [] /\ wire = body
  | UntilClose => trailer = [] /\ wire = body
  end.

(** ** Two fields that are looked at in every message *)
Definition ascii_tok (s : str) : Prop := token s /\ Forall (fun c => 0 <= c < 128) s.
Fixpoint commas (l : list str) : str :=
  match l with [] => [] | [x] => x | x :: r => x ++ lit ", " ++ commas r end.
(** the options of the Connection fields *)
Definition connection_options (fs : list field) (opts : list str) : Prop :=
  exists vs, values (lit "Connection") fs vs /\ commas vs = commas opts /\ Forall ascii_tok opts.
(** no Content-Type, or one that is not multipart *)
Definition plain_type (fs : list field) : Prop :=
  values (lit "Content-Type") fs [] \/
  exists t st ps, ascii_tok t /\ ascii_tok st /\ Forall param_ok ps /\ lower t <> lit "multipart" /\
    values (lit "Content-Type") fs [t ++ lit "/" ++ st ++ concat (map param_text ps)].
(** whether the connection can be used again: RFC 2616 8.1 (HTTP/1.0 connections are not kept) *)
Definition persistent (major minor : Z) (opts : list str) : Prop :=
  (1 < major \/ major = 1 /\ 0 < minor) /\ ~ In (lit "close") (map lower opts).

(** ** The text of a message *)
Definition message_text (start : str) (fs : list field) (wire : str) : str :=
  start ++ crlf ++ concat (map field_text fs) ++ crlf ++ wire.
(** The reason of a status line: of the TEXT that RFC 2616 allows, that without quotes and brackets, and with
    single spaces *)
Definition reason_char (c : Z) : Prop := tok c \/ (separator c /\ c <> 9 /\ c <> 34 /\ c <> 40).
Definition reason_ok (r : str) : Prop :=
  Forall reason_char r /\ (forall a b, r <> a ++ [32; 32] ++ b) /\ (forall b, r <> 32 :: b).
(** A status line and header fields; [h_opts] are the options of the Connection fields *)
Record head := mkH { h_major : Z; h_minor : Z; h_status : Z; h_reason : str; h_fields : list field; h_opts : list str }.
Definition head_ok (h : head) : Prop :=
  0 <= h_major h /\ 0 <= h_minor h /\ 0 <= h_status h /\ reason_ok (h_reason h) /\ Forall field_ok (h_fields h) /\
  connection_options (h_fields h) (h_opts h) /\ plain_type (h_fields h).
Definition status_text (h : head) : str :=
  lit "HTTP/" ++ dec_nat (h_major h) ++ lit "." ++ dec_nat (h_minor h) ++ lit " " ++ dec_nat (h_status h) ++ lit " " ++ h_reason h.
Definition head_text (h : head) : str := message_text (status_text h) (h_fields h) [].
(** a response that only says that another is coming *)
Definition interim_status (st : Z) : Prop := 100 <= st <= 199 /\ st <> 101.
Definition head_persistent (h : head) : Prop := persistent (h_major h) (h_minor h) (h_opts h).
(** what a server sends for one response: blank lines, responses that are not the answer, and the answer *)
Definition response_bytes (blank : nat) (before : list head) (h : head) (wire : str) : str :=
  concat (repeat crlf blank) ++ concat (map head_text before) ++ head_text h ++ wire.
Definition before_ok (before : list head) : Prop := Forall (fun h => head_ok h /\ interim_status (h_status h)) before.
(** data come in packets, none of them empty *)
Definition packets_ok (l : list str) : Prop := Forall (fun p : str => p <> []) l.

(** ** Requests *)
(** a method: a token without lower case letters *)
Definition upper_token (t : str) : Prop := ascii_tok t /\ Forall (fun c => ~ 97 <= c <= 122) t.
Definition uri_ok (u : str) : Prop := u <> [] /\ Forall (fun c => ~ white c) u.
(** a request's start line and header fields *)
Record rhead := mkQ { q_method : str; q_uri : str; q_major : Z; q_minor : Z; q_fields : list field; q_opts : list str }.
Definition rhead_ok (h : rhead) : Prop :=
  upper_token (q_method h) /\ uri_ok (q_uri h) /\ 0 <= q_major h /\ 0 <= q_minor h /\ Forall field_ok (q_fields h) /\
  connection_options (q_fields h) (q_opts h) /\ plain_type (q_fields h).
Definition rhead_text (h : rhead) : str :=
  message_text (q_method h ++ lit " " ++ q_uri h ++ lit " HTTP/" ++ dec_nat (q_major h) ++ lit "." ++ dec_nat (q_minor h)) (q_fields h) [].
