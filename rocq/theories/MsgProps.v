(** C72-C78: HTTP messages - header fields, framing, sending and receiving. *)
From Verif Require Import Py Num UriModel UriRel HttpModel HttpSpec HttpProofs HttpLex HttpParamModel HttpParamSpec
  HttpProps HttpParamProofs HttpParamMain BswModel MsgModel MsgSpec MsgLex MsgHead MsgRecv MsgData MsgStart MsgWhole MsgEnds MsgMain
  MsgSend MsgLength MsgBody MsgSent MsgReq.

(** ** C72: header fields *)
(** set_header, then get_header_list: names are compared without regard to case, the value is stripped, append mode adds
    to the values *)
Theorem c72_set_get : forall hs n v a name,
  get_header_list (set_header hs n (Some v) a) name =
  if str_eqb (lower name) (lower n)
  then Some (match get_header_list hs n with Some l => if a then l ++ [bstrip v] else [bstrip v] | None => [bstrip v] end)
  else get_header_list hs name.
Proof. apply get_set. Qed.
Theorem c72_strip : forall v, trimmed v (bstrip v).
Proof. apply trimmed_bstrip. Qed.
(** set_header(name, None) removes the field and no other, whatever was set before *)
Theorem c72_unset : forall sets n a name, Forall setting_ok sets ->
  get_header_list (set_header (set_all sets) n None a) name =
  if str_eqb (lower name) (lower n) then None else get_header_list (set_all sets) name.
Proof. intros sets n a name F. apply get_unset. apply (set_all_ok _ F). Qed.
(** get_header joins the values with commas *)
Theorem c72_get_header : forall hs name, get_header hs name = option_map commas (get_header_list hs name).
Proof. apply get_list_get. Qed.
(** what send_header writes is a list of header fields which, for every name, have the values that were set *)
Theorem c72_written : forall sets, Forall setting_ok sets ->
  exists fs, header_lines (set_all sets) = concat (map field_text fs) ++ crlf /\ Forall field_ok fs /\
    forall name, values name fs (match get_header_list (set_all sets) name with Some l => l | None => [] end).
Proof.
  intros sets F. pose proof (set_all_ok _ F) as Ho. exists (emitted (set_all sets)). split; [apply header_lines_eq|]. split; [apply emitted_ok; exact Ho|].
  intros name. apply emitted_values. exact Ho.
Qed.
(** what the receiver makes of header fields: for every name the values of the fields, in order; continuation lines
    belong to the value *)
Theorem c72_read : forall fs name vs, Forall field_ok fs -> values name fs vs ->
  exists m', recv_lines (new_msg KReq [] []) (map line (flat_map flines fs) ++ [CRLF]) = Ok m' /\
    get_header_list (r_headers m') name = match vs with [] => None | _ => Some vs end.
Proof.
  intros fs name vs F V. eexists. split; [apply recv_fields; [exact F|reflexivity]|]. cbn [r_headers set_heads]. apply (values_get_list _ _ _ V).
Qed.
Theorem c72_values_one : forall name fs v1 v2, values name fs v1 -> values name fs v2 -> v1 = v2.
Proof. intros name fs v1 v2 H1 H2. eapply values_fun; [exact H1|exact H2]. Qed.
Theorem c72_values_all : forall name fs, exists vs, values name fs vs.
Proof. apply values_ex. Qed.
Print Assumptions c72_written. Print Assumptions c72_read. Print Assumptions c72_unset.
Definition sets1 : list setting := [(lit "X-A", Some (lit " one "), false); (lit "x-a", Some (lit "two"), true); (lit "B", Some (lit "q"), false);
  (lit "C", Some (lit "gone"), false); (lit "c", None, false)].
Example c72_case : header_lines (set_all sets1) = lit "B: q" ++ CRLF ++ lit "X-A: one" ++ CRLF ++ lit "X-A: two" ++ CRLF ++ CRLF /\
  Forall setting_ok sets1.
Proof.
  split; [vm_compute; reflexivity|]. repeat (constructor; [split; [cbn [fst snd]; apply lit_token; [discriminate|reflexivity]|cbn [fst snd]; intros v E; inversion E; subst; apply not_in_no_crlf; cbn; intuition lia]|]). constructor.
Qed.
Definition fields1 : list field := [mkF (lit "X-A") (lit " one") [lit " more"]; mkF (lit "B") (lit "q") []; mkF (lit "x-a") (lit "two") []].
Example c72_read_case : values (lit "X-a") fields1 [lit "one" ++ crlf ++ lit " more"; lit "two"] /\ Forall field_ok fields1.
Proof.
  split.
  - apply vs_same; [reflexivity| |apply vs_other; [vm_compute; discriminate|apply vs_same; [reflexivity| |constructor]]].
    + apply (trimmed_bstrip (field_raw (mkF (lit "X-A") (lit " one") [lit " more"]))).
    + apply (trimmed_bstrip (field_raw (mkF (lit "x-a") (lit "two") []))).
  - repeat (constructor; [split; [apply lit_token; [discriminate|reflexivity]|split; [apply not_in_no_crlf; cbn; intuition lia|
      repeat (constructor; [split; [apply not_in_no_crlf; cbn; intuition lia|exists 32, (lit "more"); split; [reflexivity|left; reflexivity]]|]); constructor]]|]). constructor.
Qed.
(** a CRLF in a value makes another header field *)
Theorem c72_injection_refuted : header_lines (set_header [] (lit "A") (Some (lit "x" ++ CRLF ++ lit "B: y")) false) =
  header_lines (set_header (set_header [] (lit "A") (Some (lit "x")) false) (lit "B") (Some (lit "y")) false).
Proof. vm_compute. reflexivity. Qed.

(** ** C73: a response is received as it was sent, however it is cut into packets *)
Theorem c73_received : forall hd blank before h fr body trailer wire rest ws fl buf packets,
  before_ok before -> head_ok h -> ~ interim_status (h_status h) ->
  response_framing (h_status h) hd (h_fields h) fr -> framed fr body trailer wire -> fr <> UntilClose ->
  (fr = Chunked -> Forall (eq false) fl) ->
  packets_ok buf -> packets_ok packets -> packets <> [] ->
  concat buf ++ concat packets = response_bytes blank before h wire ++ rest ->
  exists c, ends (client hd ws fl buf packets) (Complete c) /\ unread c = rest /\
    r_status (c_msg c) = h_status h /\ r_reason (c_msg c) = h_reason h /\ r_proto (c_msg c) = Some (h_major h, h_minor h) /\
    r_out (c_msg c) = body /\
    (forall name vs, values name (h_fields h ++ trailer) vs ->
       get_header_list (r_headers (c_msg c)) name = match vs with [] => None | _ => Some vs end) /\
    (r_keep (c_msg c) = true <-> Forall head_persistent (before ++ [h])).
Proof.
  intros hd blank before h fr body trailer wire rest ws fl buf packets H1 H2 H3 H4 H5 H6 H7 H8 H9 H10 H11.
  destruct (response_done hd blank before h fr body trailer wire rest ws fl buf packets) as (c & E & U & _ & _ & R1 & R2 & R3 & R4 & R5 & R6); try assumption.
  exists c. split; [exact E|]. split; [exact U|]. split; [exact R1|]. split; [exact R2|]. split; [exact R3|]. split; [exact R4|]. split; [|exact R6].
  intros name vs V. rewrite R5. apply (values_get_list _ _ _ V).
Qed.
(** and it is the only outcome *)
Theorem c73_only : forall c o1 o2, ends c o1 -> ends c o2 -> o1 = o2.
Proof. intros c o1 o2 H1 H2. eapply ends_fun; [exact H1|exact H2]. Qed.
Print Assumptions c73_received.

(** ** C74: a response that is cut short is never complete, and what was given to the application is the beginning of the body *)
Theorem c74_cut_short : forall hd blank before h fr body trailer wire ws fl buf packets missing,
  before_ok before -> head_ok h -> ~ interim_status (h_status h) ->
  response_framing (h_status h) hd (h_fields h) fr -> framed fr body trailer wire -> fr <> UntilClose ->
  (fr = Chunked -> Forall (eq false) fl) ->
  packets_ok buf -> packets_ok packets -> missing <> [] ->
  (concat buf ++ concat packets) ++ missing = response_bytes blank before h wire ->
  exists c, ends (client hd ws fl buf packets) (Closed c) /\ exists t, body = r_out (c_msg c) ++ t.
Proof. exact response_cut. Qed.
Print Assumptions c74_cut_short.

(** ** C75: a response without a length is all that comes until the server hangs up *)
Theorem c75_until_close : forall hd blank before h body ws fl buf packets,
  before_ok before -> head_ok h -> response_framing (h_status h) hd (h_fields h) UntilClose ->
  packets_ok buf -> packets_ok packets -> packets <> [] -> concat buf ++ concat packets = response_bytes blank before h body ->
  exists c, ends (client hd ws fl buf packets) (Closed c) /\
    r_status (c_msg c) = h_status h /\ r_reason (c_msg c) = h_reason h /\ r_proto (c_msg c) = Some (h_major h, h_minor h) /\
    r_out (c_msg c) = body /\
    (forall name vs, values name (h_fields h) vs -> get_header_list (r_headers (c_msg c)) name = match vs with [] => None | _ => Some vs end).
Proof.
  intros hd blank before h body ws fl buf packets H1 H2 H3 H4 H5 H6 H7.
  destruct (response_close hd blank before h body ws fl buf packets) as (c & E & R1 & R2 & R3 & R4 & R5); try assumption.
  exists c. split; [exact E|]. split; [exact R1|]. split; [exact R2|]. split; [exact R3|]. split; [exact R4|].
  intros name vs V. rewrite R5. apply (values_get_list _ _ _ V).
Qed.
Print Assumptions c75_until_close.

(** ** C76: what is sent is framed as its header fields say *)
Theorem c76_request : forall maxra bufsize protocol method sets b m, (0 < bufsize)%nat -> Forall setting_ok sets ->
  te_given (set_all sets) b -> cl_given (set_all sets) (request_right b) ->
  start_sending maxra protocol (new_smsg (SReq method) (set_all sets) b) = Ok m ->
  exists fs fr n w, send_header maxra m = Ok (m, concat (map field_text fs) ++ crlf) /\ Forall field_ok fs /\
    others_sent (set_all sets) fs /\ connection_sent (set_all sets) fs protocol fr /\ request_framing fs fr /\
    gives bufsize n m w /\ framed fr (body_bytes b) [] w.
Proof. exact request_sent. Qed.
Theorem c76_response : forall maxra bufsize protocol st rm rp sp sets b m, (0 < bufsize)%nat -> Forall setting_ok sets ->
  te_given (set_all sets) b -> cl_given (set_all sets) (response_right b) ->
  start_sending maxra protocol (new_smsg (SResp st rm rp sp) (set_all sets) b) = Ok m ->
  exists fs fr n w, send_header maxra m = Ok (m, concat (map field_text fs) ++ crlf) /\ Forall field_ok fs /\
    others_sent (set_all sets) fs /\ connection_sent (set_all sets) fs protocol fr /\ response_framing st (str_eqb rm (lit "HEAD")) fs fr /\
    gives bufsize n m w /\ framed fr (body_bytes b) [] w.
Proof. exact response_sent. Qed.
Print Assumptions c76_request. Print Assumptions c76_response.

(** ** C77: what one side sends the other receives *)
Theorem c77_response : forall maxra bufsize protocol st reason rm rp sp a b sets bd m, (0 < bufsize)%nat -> Forall setting_ok sets ->
  te_given (set_all sets) bd -> cl_given (set_all sets) (response_right bd) -> plain_given (set_all sets) -> options_given (set_all sets) ->
  0 <= a -> 0 <= b -> 0 <= st -> ~ interim_status st -> reason_ok reason ->
  start_sending maxra protocol (new_smsg (SResp st rm rp sp) (set_all sets) bd) = Ok m ->
  exists text n w, send_header maxra m = Ok (m, text) /\ gives bufsize n m w /\
  forall ws packets, packets_ok packets -> concat packets = status_line (a, b) st reason ++ text ++ w ->
  exists c o, ends (client (str_eqb rm (lit "HEAD")) ws [] [] packets) o /\
    (o = Complete c /\ unread c = [] \/ o = Closed c /\ get_header_list (r_headers (c_msg c)) (lit "Connection") = Some [lit "close"]) /\
    r_status (c_msg c) = st /\ r_reason (c_msg c) = reason /\ r_proto (c_msg c) = Some (a, b) /\ r_out (c_msg c) = body_bytes bd /\
    (forall name, lower name <> lit "transfer-encoding" -> lower name <> lit "content-length" -> lower name <> lit "connection" ->
      get_header_list (r_headers (c_msg c)) name = get_header_list (set_all sets) name).
Proof. exact round_trip. Qed.
Theorem c77_request : forall maxra bufsize protocol method uri a b sets bd m, (0 < bufsize)%nat -> Forall setting_ok sets ->
  te_given (set_all sets) bd -> cl_given (set_all sets) (request_right bd) -> plain_given (set_all sets) -> options_given (set_all sets) ->
  upper_token method -> uri_ok uri -> 0 <= a -> 0 <= b ->
  start_sending maxra protocol (new_smsg (SReq method) (set_all sets) bd) = Ok m ->
  exists text n w, send_header maxra m = Ok (m, text) /\ gives bufsize n m w /\
  forall ws packets, packets_ok packets -> concat packets = request_line method uri (a, b) ++ text ++ w ->
  exists c, ends (reader ws [] [] packets) (Complete c) /\ unread c = [] /\
    r_method (c_msg c) = method /\ r_uri (c_msg c) = uri /\ r_proto (c_msg c) = Some (a, b) /\ r_out (c_msg c) = body_bytes bd /\
    (forall name, lower name <> lit "transfer-encoding" -> lower name <> lit "content-length" -> lower name <> lit "connection" ->
      get_header_list (r_headers (c_msg c)) name = get_header_list (set_all sets) name).
Proof. exact request_round. Qed.
Print Assumptions c77_response. Print Assumptions c77_request.

(** ** Cases that meet the hypotheses *)
Fixpoint run (n : nat) (c : conn) : outcome :=
  match n with O => Next c | S k => match conn_step c with Next c' => run k c' | o => o end end.
Lemma run_ends : forall n c o, run n c = o -> (forall c', o <> Next c') -> ends c o.
Proof.
  induction n as [|n IH]; intros c o E H; cbn [run] in E; [exfalso; apply (H c); congruence|].
  destruct (conn_step c) as [c'| | |] eqn:S.
  - eapply en_next; [exact S|]. apply IH; assumption.
  - apply en_last; [congruence|exact H].
  - apply en_last; [congruence|exact H].
  - apply en_last; [congruence|exact H].
Qed.
Definition hd1 : head := mkH 1 1 200 (lit "OK") [mkF (lit "Transfer-Encoding") (lit " chunked") []] [].
Definition wire1 : str := lit "3;a=b" ++ CRLF ++ lit "abc" ++ CRLF ++ lit "0" ++ CRLF ++ lit "X: y" ++ CRLF ++ CRLF.
Lemma tok_lit : forall s, s <> [] -> forallb is_tokchar s = true -> Forall (fun c => 0 <= c < 128) s -> ascii_tok s.
Proof. intros s H F A. split; [|exact A]. split; [exact H|]. apply Forall_forall. intros c Hc. apply is_tok_tok. rewrite forallb_forall in F. apply F. exact Hc. Qed.
Lemma one_field : forall n v, token n -> no_crlf v -> field_ok (mkF n v []).
Proof. intros n v T N. split; [exact T|]. split; [exact N|constructor]. Qed.
Ltac notin := apply not_in_no_crlf; cbn; intuition lia.
Ltac tk := apply lit_token; [discriminate|reflexivity].
Lemma hd1_ok : head_ok hd1.
Proof.
  split; [cbn; lia|]. split; [cbn; lia|]. split; [cbn; lia|]. split; [|split; [|split]].
  - split; [|split].
    + repeat (constructor; [left; apply is_tok_tok; reflexivity|]). constructor.
    + intros [|? [|? [|? ?]]] b E; discriminate.
    + discriminate.
  - constructor; [apply one_field; [tk|notin]|constructor].
  - exists []. split; [|split; [reflexivity|constructor]]. apply vs_other; [vm_compute; discriminate|constructor].
  - left. apply vs_other; [vm_compute; discriminate|constructor].
Qed.
Lemma te1 : response_framing 200 false (h_fields hd1) Chunked.
Proof.
  apply rf_fields; [intros [X|[X|[X|X]]]; (lia || discriminate)|]. apply (fr_chunked _ (lit "chunked")); [|reflexivity].
  apply vs_same; [reflexivity| |constructor]. apply (trimmed_bstrip (lit " chunked")).
Qed.
Lemma wire1_ok : framed Chunked (lit "abc") [mkF (lit "X") (lit " y") []] wire1.
Proof.
  change wire1 with (lit "3;a=b" ++ crlf ++ lit "abc" ++ crlf ++ (lit "0" ++ crlf ++ concat (map field_text [mkF (lit "X") (lit " y") []]) ++ crlf)).
  change (lit "abc") with (lit "abc" ++ []) at 1. apply ch_chunk; [discriminate| |apply ch_last].
  - exists (lit "3"), [([], (lit "a", lit "b"))]. split; [|split; [|reflexivity]].
    + apply hx_one. left. cbn. lia.
    + constructor; [|constructor]. split; [constructor|]. split; tk.
  - exists (lit "0"), []. split; [apply hx_one; left; cbn; lia|]. split; [constructor|reflexivity].
  - constructor; [apply one_field; [tk|notin]|constructor].
Qed.
(** the hypotheses of C73 and C74 hold of a chunked response in two packets, after a blank line *)
Example c73_case : exists c, ends (client false [Some 1%nat; None] [] [] [CRLF ++ firstn 40 (head_text hd1 ++ wire1); skipn 40 (head_text hd1 ++ wire1) ++ lit "rest"]) (Complete c) /\
  unread c = lit "rest" /\ r_out (c_msg c) = lit "abc" /\ get_header_list (r_headers (c_msg c)) (lit "x") = Some [lit "y"].
Proof.
  destruct (c73_received false 1 [] hd1 Chunked (lit "abc") [mkF (lit "X") (lit " y") []] wire1 (lit "rest") [Some 1%nat; None] [] []
    [CRLF ++ firstn 40 (head_text hd1 ++ wire1); skipn 40 (head_text hd1 ++ wire1) ++ lit "rest"]) as (c & E & U & _ & _ & _ & O & V & _).
  - constructor.
  - apply hd1_ok.
  - intros [X _]. cbn in X. lia.
  - apply te1.
  - apply wire1_ok.
  - discriminate.
  - constructor.
  - constructor.
  - repeat constructor; discriminate.
  - discriminate.
  - vm_compute. reflexivity.
  - exists c. split; [exact E|]. split; [exact U|]. split; [exact O|]. apply (V (lit "x") [lit "y"]).
    apply vs_other; [vm_compute; discriminate|]. apply vs_same; [reflexivity| |constructor]. apply (trimmed_bstrip (lit " y")).
Qed.
(** a response with a stream of unknown length is sent in chunks to a client that knows HTTP/1.1 *)
Example c77_case : exists m text w m', start_sending 100 (Some (1, 1)) (new_smsg (SResp 200 (lit "GET") (1, 1) (1, 1)) (set_all sets1)
    (Stream (mkSrc (lit "hello") [Some 1%nat; None]))) = Ok m /\ send_header 100 m = Ok (m, text) /\ send_all 10 4 m = Ok (w, m') /\
  w = lit "2" ++ CRLF ++ lit "he" ++ CRLF ++ lit "3" ++ CRLF ++ lit "llo" ++ CRLF ++ lit "0" ++ CRLF ++ CRLF /\
  te_given (set_all sets1) (Stream (mkSrc (lit "hello") [])) /\ cl_given (set_all sets1) (response_right (Stream (mkSrc (lit "hello") []))) /\
  plain_given (set_all sets1) /\ options_given (set_all sets1).
Proof.
  do 4 eexists. split; [vm_compute; reflexivity|]. split; [vm_compute; reflexivity|]. split; [vm_compute; reflexivity|]. split; [vm_compute; reflexivity|].
  split; [left; reflexivity|]. split; [left; reflexivity|]. split; [left; reflexivity|]. exists []. split; [reflexivity|constructor].
Qed.

(** ** C78: where the code does not do what RFC 2616 says *)
(** a response that came with the one before it, in the last packet, is never read *)
Theorem c78_pipelined_refuted : exists packets c1 c2,
  concat packets = lit "HTTP/1.1 204 A" ++ CRLF ++ CRLF ++ lit "HTTP/1.1 204 B" ++ CRLF ++ CRLF /\
  ends (client false [] [] [] packets) (Complete c1) /\
  ends (next_response c1 (new_msg (KResp false) [] [])) (Closed c2) /\ r_status (c_msg c2) = 0.
Proof.
  exists [lit "HTTP/1.1 204 A" ++ CRLF ++ CRLF ++ lit "HTTP/1.1 204 B" ++ CRLF ++ CRLF]. do 2 eexists.
  split; [vm_compute; reflexivity|]. split; [apply (run_ends 10); [vm_compute; reflexivity|discriminate]|].
  split; [apply (run_ends 10); [vm_compute; reflexivity|discriminate]|reflexivity].
Qed.
(** when the entity body cannot be flushed at the end of a chunked response, the response never ends *)
Theorem c78_flush_refuted : exists packets c,
  concat packets = head_text hd1 ++ wire1 /\ ends (client false [] [true] [] packets) (Closed c) /\ r_out (c_msg c) = lit "abc".
Proof.
  exists [head_text hd1 ++ wire1]. eexists. split; [apply app_nil_r|]. split; [apply (run_ends 30); [vm_compute; reflexivity|discriminate]|reflexivity].
Qed.
(** a body that is shorter than the Content-Length that was set for it is sent as it is *)
Theorem c78_short_refuted : exists m text m', start_sending 100 (Some (1, 1)) (new_smsg (SReq (lit "PUT")) (set_content_length [] 10)
    (Stream (mkSrc (lit "hello") []))) = Ok m /\ send_header 100 m = Ok (m, text) /\ text = lit "Content-Length: 10" ++ CRLF ++ CRLF /\
  send_all 10 4 m = Ok (lit "hello", m').
Proof. do 3 eexists. split; [vm_compute; reflexivity|]. split; [vm_compute; reflexivity|]. split; [vm_compute; reflexivity|]. vm_compute. reflexivity. Qed.
(** a response that is to be sent in chunks and has no body is sent without the last chunk *)
Theorem c78_no_chunks_refuted : exists m text m', start_sending 100 (Some (1, 1)) (new_smsg (SResp 200 (lit "GET") (1, 1) (1, 1))
    (set_header [] (lit "Transfer-Encoding") (Some (lit "chunked")) false) NoBody) = Ok m /\
  send_header 100 m = Ok (m, text) /\ text = lit "Content-Length: 0" ++ CRLF ++ lit "Transfer-Encoding: chunked" ++ CRLF ++ CRLF /\
  send_all 10 4 m = Ok ([], m').
Proof. do 3 eexists. split; [vm_compute; reflexivity|]. split; [vm_compute; reflexivity|]. split; [vm_compute; reflexivity|]. vm_compute. reflexivity. Qed.
(** with Transfer-Encoding: identity a request's body is sent without a length, and is not received *)
Theorem c78_identity_refuted : exists m text m' c, start_sending 100 (Some (1, 1)) (new_smsg (SReq (lit "POST"))
    (set_header [] (lit "Transfer-Encoding") (Some (lit "identity")) false) (Stream (mkSrc (lit "hello") []))) = Ok m /\
  send_header 100 m = Ok (m, text) /\ send_all 10 4 m = Ok (lit "hello", m') /\
  ends (reader [] [] [] [request_line (lit "POST") (lit "/") (1, 1) ++ text ++ lit "hello"]) (Complete c) /\ r_out (c_msg c) = [].
Proof.
  do 4 eexists. split; [vm_compute; reflexivity|]. split; [vm_compute; reflexivity|]. split; [vm_compute; reflexivity|].
  split; [apply (run_ends 10); [vm_compute; reflexivity|discriminate]|reflexivity].
Qed.
(** a negative Content-Length is accepted, and is taken for an order to read header fields *)
Theorem c78_negative_refuted : exists c, run 4 (client false [] [] [] [lit "HTTP/1.1 200 OK" ++ CRLF ++ lit "Content-Length: -3" ++ CRLF ++ CRLF]) = Next c /\
  r_mode (c_msg c) = Some DATA /\ recv_mode (c_msg c) = Some RECV_HEADERS.
Proof. eexists. split; [vm_compute; reflexivity|]. split; reflexivity. Qed.
Print Assumptions c78_identity_refuted.
(** ** Transfer codings *)
(** chunked is only ever accepted as the last of the codings *)
Theorem c73_chunked_last : forall hs v l1 te l2, get_header hs (lit "Transfer-Encoding") = Some v ->
  te_list_from_str v = Ok (l1 ++ te :: l2) -> te_token te = lit "chunked" ->
  (l2 <> [] -> get_transfer_encoding hs = Err ProtocolError).
Proof.
  intros hs v l1 te l2 E L T N. unfold get_transfer_encoding. rewrite E, L. cbn [rbind].
  assert (forall b, check_te b (l1 ++ te :: l2) = Err ProtocolError) as ->; [|reflexivity].
  clear E L. induction l1 as [|x l1 IH]; intro b; cbn [app check_te]; (destruct b; [reflexivity|]).
  - rewrite T. destruct l2 as [|y l2]; [congruence|]. cbn [check_te]. reflexivity.
  - apply IH.
Qed.
(** the body is read as chunks if and only if the last coding is chunked *)
Theorem c73_coding : forall m m' l te, get_transfer_encoding (r_headers m) = Ok (Some (l ++ [te])) ->
  ~ (l = [] /\ te_token te = lit "identity") -> message_recv_transferlength m = Ok m' ->
  (r_chunked m' = true <-> te_token te = lit "chunked") /\ r_len m' = None.
Proof.
  intros m m' l te E N H. unfold message_recv_transferlength in H. rewrite E in H. cbn [rbind] in H.
  assert ((match l ++ [te] with [t] => str_eqb (te_token t) (lit "identity") | _ => false end) = false) as K.
  { destruct l as [|x [|y l]]; cbn [app]; [|reflexivity|reflexivity]. destruct (str_eqb (te_token te) (lit "identity")) eqn:Q; [|reflexivity].
    apply str_eqb_eq in Q. elim N. auto. }
  rewrite K, rev_unit in H. cbv iota in H. destruct (check_decoders (rev l)) as [[]|]; cbn [rbind] in H; [|discriminate]. injection H as <-.
  split; [|reflexivity]. cbn [r_chunked set_frame]. split; [apply str_eqb_eq|intros ->; reflexivity].
Qed.
Example c73_coding_case : let hs v := set_header [] (lit "Transfer-Encoding") (Some v) false in
  get_transfer_encoding (hs (lit "identity, chunked")) = Ok (Some ([mkte (lit "identity") []] ++ [mkte (lit "chunked") []])) /\
  (exists te, get_transfer_encoding (hs (lit "compress")) = Ok (Some ([] ++ [te])) /\ te_token te = lit "compress") /\
  get_transfer_encoding (hs (lit "chunked, identity")) = Err ProtocolError.
Proof. split; [vm_compute; reflexivity|]. split; [eexists; split; vm_compute; reflexivity|vm_compute; reflexivity]. Qed.
Print Assumptions c73_chunked_last. Print Assumptions c73_coding.
