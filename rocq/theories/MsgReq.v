(** Proofs for C72-C78: requests, as they are received. *)
From Verif Require Import Py Num UriModel UriRel HttpModel HttpSpec HttpProofs HttpLex HttpParamModel HttpParamSpec
  HttpProps HttpParamProofs HttpParamMain HttpParamProps BswModel MsgModel MsgSpec MsgLex MsgHead MsgRecv MsgData MsgStart MsgWhole MsgEnds MsgMain MsgSend MsgLength MsgBody MsgSent.

(** ** the request line *)
Lemma bsplit_word : forall w a s, Forall (fun c => is_bspace c = false) a -> bsplit_go w (a ++ s) = bsplit_go (w ++ a) s.
Proof.
  intros w a. revert w. induction a as [|c a IH]; intros w s F; [rewrite app_nil_r; reflexivity|]. inversion F as [|? ? H F']; subst.
  cbn [app bsplit_go]. rewrite H, IH by exact F'. rewrite <- app_assoc. reflexivity.
Qed.
Lemma bsplit_three : forall a b c, a <> [] -> b <> [] -> c <> [] -> Forall (fun x => is_bspace x = false) a -> Forall (fun x => is_bspace x = false) b ->
  Forall (fun x => is_bspace x = false) c -> bsplit (a ++ [32] ++ b ++ [32] ++ c) = [a; b; c].
Proof.
  intros a b c Ha Hb Hc Fa Fb Fc. unfold bsplit. rewrite bsplit_word by exact Fa. cbn [app bsplit_go]. change (is_bspace 32) with true. cbv iota.
  destruct a as [|x a]; [congruence|]. rewrite bsplit_word by exact Fb. cbn [app bsplit_go]. change (is_bspace 32) with true. cbv iota.
  destruct b as [|y b]; [congruence|]. rewrite <- (app_nil_r c) at 1. rewrite bsplit_word by exact Fc. cbn [app bsplit_go]. destruct c; [congruence|reflexivity].
Qed.
Lemma tok_nospace : forall c, tok c -> is_bspace c = false.
Proof.
  intros c T. apply not_white. intros W. destruct T as [T1 T2]. destruct W as [->|W].
  - apply T2. apply is_sep_sep. reflexivity.
  - apply T1. unfold ctl. lia.
Qed.
Lemma version_bytes : forall a b, 0 <= a -> 0 <= b -> Forall (fun x => is_bspace x = false) (version_to_bytes (a, b)) /\ version_to_bytes (a, b) <> [].
Proof.
  intros a b Ha Hb. unfold version_to_bytes. cbn [fst snd]. split; [|discriminate]. destruct (dec_ok a Ha) as (_ & A & _). destruct (dec_ok b Hb) as (_ & B & _).
  apply Forall_app. split; [repeat constructor|]. apply Forall_app. split; [eapply Forall_impl; [|exact A]; apply dec_nospace|].
  apply Forall_app. split; [repeat constructor|]. eapply Forall_impl; [|exact B]; apply dec_nospace.
Qed.
Lemma upper_id : forall t, Forall (fun c => ~ 97 <= c <= 122) t -> b_upper t = t.
Proof.
  intros t F. unfold b_upper. induction F as [|c t H F IH]; [reflexivity|]. cbn [map]. rewrite IH. f_equal. unfold upper_c.
  destruct ((97 <=? c) && (c <=? 122)) eqn:E; [lia|reflexivity].
Qed.
Lemma request_line_ok : forall m method uri a b, upper_token method -> uri_ok uri -> 0 <= a -> 0 <= b ->
  request_start m (request_line method uri (a, b)) = Ok (set_start m method uri (r_status m) (r_reason m) (Some (a, b))).
Proof.
  intros m method uri a b ([[Tn Tf] Ta] & U) [Un Uf] Ha Hb. unfold request_start, request_line.
  replace (method ++ [32] ++ uri ++ [32] ++ version_to_bytes (a, b) ++ CRLF) with ((method ++ [32] ++ uri ++ [32] ++ version_to_bytes (a, b)) ++ CRLF) by (rewrite <- !app_assoc; reflexivity).
  change (?x ++ CRLF) with (line x). rewrite drop_last_line. destruct (version_bytes a b Ha Hb) as [V1 V2].
  rewrite bsplit_three; try assumption.
  - cbv iota. rewrite (upper_id _ U). assert (Ct : check_token method = Ok method).
    { unfold check_token. replace (existsb (fun b0 => is_separator b0 || is_ctl b0 || negb (is_chr b0)) method) with false; [reflexivity|].
      symmetry. apply not_true_iff_false. rewrite existsb_exists. intros (c & Hc & X). rewrite Forall_forall in Tf. specialize (Tf c Hc). apply is_tok_tok in Tf.
      rewrite Forall_forall in Ta. specialize (Ta c Hc). assert (Ch : is_chr c = true) by (unfold is_chr; lia). rewrite Ch in X. cbn [negb] in X. rewrite orb_false_r in X.
      unfold is_tokchar in Tf. rewrite orb_comm, X in Tf. discriminate. }
    rewrite Ct. cbn [rbind]. rewrite c39_version by assumption. reflexivity.
  - eapply Forall_impl; [|exact Tf]. apply tok_nospace.
  - eapply Forall_impl; [|exact Uf]. intros c. apply not_white.
Qed.

(** ** the framing *)
Lemma request_frame : forall fs fr m, request_framing fs fr -> plain_type fs -> r_headers m = fhs fs -> r_kind m = KReq ->
  recv_transferlength m = Ok (frame_of m fr).
Proof.
  intros fs fr m F P H K. unfold recv_transferlength. rewrite K. destruct F as [fr F Nu|F].
  - rewrite (fields_frame fs fr m F P H). cbn [rbind]. destruct fr; try reflexivity. congruence.
  - rewrite (fields_frame fs UntilClose m F P H). reflexivity.
Qed.
Record qready (m : rmsg) : Prop := mkQready {
  qd_kind : r_kind m = KReq; qd_mode : r_mode m = Some START; qd_heads : r_headers m = []; qd_curr : r_curr m = None;
  qd_chunked : r_chunked m = false; qd_len : r_len m = None; qd_bound : r_bound m = None; qd_buf : r_buf m = []; qd_status : r_status m = 0; qd_reason : r_reason m = [] }.
Lemma qready_new : forall ws fl, qready (new_msg KReq ws fl).
Proof. intros. constructor; reflexivity. Qed.
Definition as_head (h : rhead) : head := mkH (q_major h) (q_minor h) 0 [] (q_fields h) (q_opts h).
Lemma as_head_ok : forall h, rhead_ok h -> head_ok (as_head h).
Proof.
  intros h (_ & _ & Ha & Hb & Ff & Co & P). split; [exact Ha|]. split; [exact Hb|]. split; [cbn; lia|]. split; [|auto].
  split; [constructor|]. split; [intros [|? ?] ?; discriminate|discriminate].
Qed.
Lemma qheads_recv : forall m h fr, qready m -> rhead_ok h -> request_framing (q_fields h) fr ->
  exists b, (b = true <-> head_persistent (as_head h)) /\
  recv (set_mode (set_start m (q_method h) (q_uri h) 0 [] (Some (q_major h, q_minor h))) (Some HEADER))
       (ILines (map line (flat_map flines (q_fields h)) ++ [CRLF])) =
  Ok (heads_done (set_start m (q_method h) (q_uri h) 0 [] (Some (q_major h, q_minor h))) (as_head h) fr (r_keep m && b)).
Proof.
  intros m h fr [K M Hs Cu Ch Le Bo Bu St Re] Hok F. pose proof Hok as (_ & _ & _ & _ & Ff & _ & P).
  unfold recv. cbn [r_mode set_mode].
  rewrite recv_fields by (assumption || reflexivity || exact Cu). cbn [rbind]. cbn [r_headers set_mode set_start]. rewrite Hs.
  match goal with |- context [recv_transferlength ?x] => rewrite (request_frame (q_fields h) fr x F P) by (reflexivity || exact K) end.
  cbn [rbind].
  assert (X : forall m', r_headers m' = fhs (q_fields h) -> r_proto m' = Some (q_major h, q_minor h) -> exists b, (b = true <-> head_persistent (as_head h)) /\ handle_headers m' = Ok (set_keep m' (r_keep m' && b))).
  { intros m' H1 H2. exact (keep_ok m' (as_head h) (as_head_ok h Hok) H1 H2). }
  destruct fr as [| |n|]; cbn [frame_of r_chunked r_len set_frame]; try (destruct (Z.eqb_spec n 0)).
  all: match goal with |- context [handle_headers ?x] => destruct (X x) as (b & B1 & B2); [reflexivity|reflexivity|] end;
    exists b; (split; [exact B1|]); rewrite B2; unfold heads_done, set_keep; cbn; rewrite ?Bo, ?Bu; try reflexivity.
  - destruct (Z.eqb_spec n 0); [|congruence]. reflexivity.
  - destruct (Z.eqb_spec n 0); [congruence|]. reflexivity.
Qed.
Lemma request_text_eq : forall h, rhead_ok h ->
  q_method h ++ lit " " ++ q_uri h ++ lit " HTTP/" ++ dec_nat (q_major h) ++ lit "." ++ dec_nat (q_minor h) =
  q_method h ++ [32] ++ q_uri h ++ [32] ++ version_to_bytes (q_major h, q_minor h).
Proof.
  intros h (_ & _ & Ha & Hb & _). unfold version_to_bytes. cbn [fst snd]. rewrite !dec_str_nat by assumption. reflexivity.
Qed.
Lemma request_nocrlf : forall h, rhead_ok h -> no_crlf (q_method h ++ [32] ++ q_uri h ++ [32] ++ version_to_bytes (q_major h, q_minor h)) /\
  q_method h ++ [32] ++ q_uri h ++ [32] ++ version_to_bytes (q_major h, q_minor h) <> [].
Proof.
  intros h ([[[Tn Tf] _] _] & [Un Uf] & Ha & Hb & _). split; [|destruct (q_method h); [congruence|discriminate]].
  apply not_in_no_crlf. intros X. destruct (version_bytes _ _ Ha Hb) as [V _]. rewrite !in_app_iff in X. rewrite Forall_forall in Tf, Uf, V.
  destruct X as [X|[[X|[]]|[X|[[X|[]]|X]]]].
  - apply Tf in X. apply tok_nospace in X. discriminate.
  - discriminate.
  - apply Uf in X. apply X. right. lia.
  - discriminate.
  - apply V in X. discriminate.
Qed.
Lemma qhead_phase : forall m h fr bufs inn rest, qready m -> rhead_ok h -> request_framing (q_fields h) fr ->
  wf inn -> wf bufs -> bytes_of bufs inn = rhead_text h ++ rest ->
  exists b bufs' inn', (b = true <-> head_persistent (as_head h)) /\ wf inn' /\ wf bufs' /\ bytes_of bufs' inn' = rest /\
    steps (mkC m bufs inn false) (mkC (heads_done (set_start m (q_method h) (q_uri h) 0 [] (Some (q_major h, q_minor h))) (as_head h) fr (r_keep m && b)) bufs' inn' false).
Proof.
  intros m h fr bufs inn rest Rd Hok F Wi Wb E. pose proof Rd as [K M Hs Cu Ch Le Bo Bu St Re]. destruct (request_nocrlf h Hok) as [Nc Nn].
  set (sl := q_method h ++ [32] ++ q_uri h ++ [32] ++ version_to_bytes (q_major h, q_minor h)) in *.
  set (m1 := set_mode (set_start m (q_method h) (q_uri h) 0 [] (Some (q_major h, q_minor h))) (Some HEADER)).
  assert (R1 : recv m (ILine (line sl)) = Ok m1).
  { unfold recv. rewrite M, line_not_crlf by exact Nn. unfold recv_start. rewrite K. destruct Hok as (H1 & H2 & H3 & H4 & _).
    replace (line sl) with (request_line (q_method h) (q_uri h) (q_major h, q_minor h)) by (unfold request_line, line, sl; rewrite <- !app_assoc; reflexivity).
    rewrite request_line_ok by assumption. cbn [rbind]. rewrite St, Re. reflexivity. }
  assert (T : rhead_text h ++ rest = line sl ++ block (flat_map flines (q_fields h)) ++ rest).
  { unfold rhead_text, message_text, block, line. rewrite request_text_eq by exact Hok. fold sl. rewrite fields_text_lines, app_nil_r, <- !app_assoc. reflexivity. }
  rewrite T in E.
  destruct (line_phase m sl (block (flat_map flines (q_fields h)) ++ rest) m1) with (inn := inn) (buf := bufs) as (b1 & i1 & W1 & W2 & E1 & S1); try assumption.
  { unfold recv_mode. rewrite M. reflexivity. }
  destruct (qheads_recv m h fr Rd Hok F) as (b & Hb & R2). fold m1 in R2.
  assert (Fl : Forall (fun l => l <> [] /\ no_crlf l) (flat_map flines (q_fields h))).
  { destruct Hok as (_ & _ & _ & _ & Ff & _). apply Forall_flat_map. eapply Forall_impl; [|exact Ff]. intros f. apply flines_ok. }
  destruct (headers_phase m1 (flat_map flines (q_fields h)) rest _ eq_refl Fl R2 i1 b1 W1 W2 E1) as (b2 & i2 & W3 & W4 & E2 & S2).
  exists b, b2, i2. split; [exact Hb|]. split; [exact W3|]. split; [exact W4|]. split; [exact E2|].
  eapply steps_trans; [exact S1|]. 
  assert (Fin : forall x, r_status x = 0 -> finished x = x) by (intros x Hx; unfold finished; rewrite Hx; destruct (r_mode x); reflexivity).
  rewrite Fin in S2 by (unfold heads_done; destruct fr as [| |n|]; try reflexivity; destruct (n =? 0); reflexivity). exact S2.
Qed.

(** ** the body *)
Definition ended_with (m m' : rmsg) (h : head) (body : str) (trailer : list field) (keep : bool) : Prop :=
  r_mode m' = None /\ r_method m' = r_method m /\ r_uri m' = r_uri m /\ r_proto m' = Some (h_major h, h_minor h) /\
  r_headers m' = fhs (h_fields h ++ trailer) /\ r_out m' = r_out m ++ body /\ r_keep m' = keep.
Lemma body_phase : forall m h fr keep body trailer wire b1 i1 rest, interim (h_status h) = false ->
  framed fr body trailer wire -> fr <> UntilClose -> (fr = Chunked -> Forall (eq false) (r_fl m)) ->
  wf i1 -> wf b1 -> bytes_of b1 i1 = wire ++ rest ->
  exists m' bufs' inn', wf inn' /\ wf bufs' /\ bytes_of bufs' inn' = rest /\ ended_with m m' h body trailer keep /\
    steps (mkC (heads_done m h fr keep) b1 i1 false) (mkC m' bufs' inn' false).
Proof.
  intros m h fr keep body trailer wire b1 i1 rest I0 Fr Nu Fl W1 W2 E1. destruct fr as [| |n|].
  - destruct Fr as (-> & -> & ->). exists (heads_done m h Empty keep), b1, i1.
    split; [exact W1|]. split; [exact W2|]. split; [exact E1|]. split; [|constructor].
    unfold ended_with. cbn [heads_done r_mode r_method r_uri r_proto r_headers r_out r_keep]. rewrite !app_nil_r. auto 10.
  - cbn [framed] in Fr. set (m1 := heads_done m h Chunked keep) in *.
    destruct (chunk_phase m1 body trailer wire Fr I0 (fhs (h_fields h)) None (r_pos m) (r_out m) (r_ws m) (r_fl m) b1 i1 rest) as (b2 & i2 & ws2 & fl2 & W3 & W4 & E2 & S2); try assumption.
    { apply Fl. reflexivity. }
    exists (chk m1 None (add_fields (fhs (h_fields h)) trailer) (Some 0) 0 (r_out m ++ body) ws2 fl2), b2, i2.
    split; [exact W3|]. split; [exact W4|]. split; [exact E2|]. split; [|exact S2].
    unfold ended_with. cbn [chk r_mode r_method r_uri r_proto r_headers r_out r_keep]. rewrite fhs_app. cbn. auto 10.
  - destruct Fr as (Ln & -> & ->). destruct (Z.eqb_spec n 0) as [->|N0].
    + destruct body as [|c body]; [|cbn in Ln; lia]. exists (heads_done m h (Length 0) keep), b1, i1.
      split; [exact W1|]. split; [exact W2|]. split; [exact E1|]. split; [|constructor].
      unfold ended_with. cbn [heads_done Z.eqb r_mode r_method r_uri r_proto r_headers r_out r_keep]. rewrite !app_nil_r. auto 10.
    + set (m1 := heads_done m h (Length n) keep) in *.
      assert (M1 : m1 = mkR (r_kind m) (Some DATA) (r_method m) (r_uri m) (h_status h) (h_reason h) (Some (h_major h, h_minor h)) (fhs (h_fields h)) None
        false (Some n) 0 None (r_bmatch m) keep [] (r_out m) (r_ws m) (r_fl m)).
      { unfold m1, heads_done. destruct (Z.eqb_spec n 0); [congruence|]. reflexivity. }
      destruct (data_phase (2 * length body + 2 * length i1 + length (r_ws m) + length (r_fl m) + 0)%nat m1 n)
        with (mode := DATA) (pos := 0) (buf := @nil Z) (out := r_out m) (ws := r_ws m) (fl := r_fl m) (bufs := b1) (inn := i1) (d := body) (rest := rest)
        as (b2 & i2 & ws2 & fl2 & W3 & W4 & E2 & F2 & S2); try assumption; try lia.
      { rewrite M1. reflexivity. }
      { rewrite M1. reflexivity. }
      { rewrite M1. exact I0. }
      { left. repeat split. lia. }
      { cbn. lia. }
      exists (upd m1 (data_end m1) n [] (r_out m ++ [] ++ body) ws2 fl2), b2, i2.
      split; [exact W3|]. split; [exact W4|]. split; [exact E2|]. split.
      * rewrite M1. unfold ended_with. cbn [upd data_end r_chunked r_mode r_method r_uri r_proto r_headers r_out r_keep app]. rewrite app_nil_r. auto 10.
      * replace m1 with (upd m1 (Some DATA) 0 [] (r_out m) (r_ws m) (r_fl m)) at 1 by (rewrite M1; reflexivity). exact S2.
  - congruence.
Qed.
(** a server that gives a request what it asks for *)
Definition reader (ws : list (option nat)) (fl : list bool) (buf packets : list str) : conn := mkC (new_msg KReq ws fl) buf packets false.
Lemma request_done : forall h fr body trailer wire rest ws fl buf packets,
  rhead_ok h -> request_framing (q_fields h) fr -> framed fr body trailer wire -> (fr = Chunked -> Forall (eq false) fl) ->
  wf buf -> wf packets -> concat buf ++ concat packets = rhead_text h ++ wire ++ rest ->
  exists c, ends (reader ws fl buf packets) (Complete c) /\ unread c = rest /\
    r_method (c_msg c) = q_method h /\ r_uri (c_msg c) = q_uri h /\ r_proto (c_msg c) = Some (q_major h, q_minor h) /\
    r_out (c_msg c) = body /\ r_headers (c_msg c) = fhs (q_fields h ++ trailer) /\
    (r_keep (c_msg c) = true <-> persistent (q_major h) (q_minor h) (q_opts h)).
Proof.
  intros h fr body trailer wire rest ws fl buf packets Hok F Fr Fl Wb Wi E.
  destruct (qhead_phase (new_msg KReq ws fl) h fr buf packets (wire ++ rest) (qready_new ws fl) Hok F Wi Wb E) as (b & b1 & i1 & Hb & W1 & W2 & E1 & S1).
  set (m1 := set_start (new_msg KReq ws fl) (q_method h) (q_uri h) 0 [] (Some (q_major h, q_minor h))) in *.
  assert (Nu : fr <> UntilClose) by (intros ->; inversion F; congruence).
  destruct (body_phase m1 (as_head h) fr (r_keep (new_msg KReq ws fl) && b) body trailer wire b1 i1 rest eq_refl Fr Nu Fl W1 W2 E1) as (m2 & b2 & i2 & W3 & W4 & E2 & R & S2).
  destruct R as (R1 & R2 & R3 & R4 & R5 & R6 & R7). exists (mkC m2 b2 i2 false). split.
  { eapply ends_steps; [eapply steps_trans; [exact S1|exact S2]|]. apply complete_ends. exact R1. }
  split; [exact E2|]. cbn [c_msg]. split; [exact R2|]. split; [exact R3|]. split; [exact R4|]. split; [exact R6|]. split; [exact R5|]. rewrite R7. exact Hb.
Qed.

(** ** From a client to a server *)
Lemma request_round : forall maxra bufsize protocol method uri a b sets bd m, (0 < bufsize)%nat -> Forall setting_ok sets ->
  te_given (set_all sets) bd -> cl_given (set_all sets) (request_right bd) -> plain_given (set_all sets) -> options_given (set_all sets) ->
  upper_token method -> uri_ok uri -> 0 <= a -> 0 <= b ->
  start_sending maxra protocol (new_smsg (SReq method) (set_all sets) bd) = Ok m ->
  exists text n w, send_header maxra m = Ok (m, text) /\ gives bufsize n m w /\
  forall ws packets, packets_ok packets -> concat packets = request_line method uri (a, b) ++ text ++ w ->
  exists c, ends (reader ws [] [] packets) (Complete c) /\ unread c = [] /\
    r_method (c_msg c) = method /\ r_uri (c_msg c) = uri /\ r_proto (c_msg c) = Some (a, b) /\ r_out (c_msg c) = body_bytes bd /\
    (forall name, lower name <> lit "transfer-encoding" -> lower name <> lit "content-length" -> lower name <> lit "connection" ->
      get_header_list (r_headers (c_msg c)) name = get_header_list (set_all sets) name).
Proof.
  intros maxra bufsize protocol method uri a b sets bd m Hb Fs T C P (opts & O1 & O2) Hm Hu Ha Hb' E. pose proof (set_all_ok _ Fs) as Ho.
  destruct (request_sent maxra bufsize protocol method sets bd m Hb Fs T C E) as (fs & fr & n & w & Sh & Ff & Os & Cs & Rf & G & Fw).
  exists (concat (map field_text fs) ++ crlf), n, w. split; [exact Sh|]. split; [exact G|]. intros ws packets Pk Ep.
  destruct (connection_options_sent _ _ _ _ _ Cs O1 O2) as (opts' & Co & _).
  set (h := mkQ method uri a b fs opts').
  assert (Hh : rhead_ok h).
  { split; [exact Hm|]. split; [exact Hu|]. split; [exact Ha|]. split; [exact Hb'|]. split; [exact Ff|]. split; [exact Co|]. eapply plain_sent; [exact P|exact Os]. }
  destruct (request_done h fr (body_bytes bd) [] w [] ws [] [] packets Hh Rf Fw) as (c & En & Un & R1 & R2 & R3 & R4 & R5 & _).
  { intros _. constructor. }
  { constructor. }
  { exact Pk. }
  { cbn [concat app]. rewrite Ep, app_nil_r. unfold rhead_text, message_text. rewrite request_text_eq by exact Hh. unfold request_line. cbn [h q_method q_uri q_major q_minor q_fields].
    rewrite <- !app_assoc. reflexivity. }
  exists c. split; [exact En|]. split; [exact Un|]. split; [exact R1|]. split; [exact R2|]. split; [exact R3|]. split; [exact R4|].
  intros name N1 N2 N3. rewrite R5, app_nil_r. apply received_others; assumption.
Qed.
