(** Proofs for C72-C78: a whole response. *)
From Verif Require Import Py Num UriModel UriRel HttpModel HttpSpec HttpProofs HttpLex HttpParamModel HttpParamSpec
  HttpProps HttpParamProofs HttpParamMain MsgModel MsgSpec MsgLex MsgHead MsgRecv MsgData MsgStart.

(** ** the framing *)
Definition frame_of (m : rmsg) (fr : framing) : rmsg :=
  match fr with
  | Empty => set_frame m false (Some 0) (r_pos m) (r_bound m) (r_bmatch m)
  | Chunked => set_frame m true None (r_pos m) (r_bound m) (r_bmatch m)
  | Length n => set_frame m false (Some n) (r_pos m) (r_bound m) (r_bmatch m)
  | UntilClose => set_frame m false None (r_pos m) (r_bound m) (r_bmatch m)
  end.
Lemma te_none : forall fs, values (lit "Transfer-Encoding") fs [] -> get_transfer_encoding (fhs fs) = Ok None.
Proof. intros fs V. unfold get_transfer_encoding, fhs. rewrite (values_get _ _ _ V). reflexivity. Qed.
Lemma fields_frame : forall fs fr m, fields_framing fs fr -> plain_type fs -> r_headers m = fhs fs ->
  message_recv_transferlength m = Ok (frame_of m fr).
Proof.
  intros fs fr m F P H. unfold message_recv_transferlength. rewrite H. destruct F as [te V L|d V1 V2 N D|V1 V2].
  - unfold get_transfer_encoding. unfold fhs at 1. rewrite (values_get _ _ _ V). cbn [commas]. rewrite (te_chunked te L). reflexivity.
  - rewrite te_none by exact V1. cbn [rbind]. unfold get_content_length, fhs. rewrite (values_get _ _ _ V2). cbn [commas].
    rewrite bstrip_digits, py_int_digits by assumption. reflexivity.
  - rewrite te_none by exact V1. cbn [rbind]. unfold get_content_length. unfold fhs at 1. rewrite (values_get _ _ _ V2). cbn [rbind].
    destruct (plain_ok fs P) as (o & -> & Ho). cbn [rbind]. destruct o as [t|]; [|reflexivity]. destruct (Ho t eq_refl) as [_ ->]. reflexivity.
Qed.
Lemma bodyless_ok : forall st hd, bodyless st hd = true <-> has_no_body st hd.
Proof.
  intros st hd. unfold bodyless, has_no_body. rewrite !orb_true_iff, !Z.eqb_eq.
  assert (X : st / 100 = 1 <-> 100 <= st <= 199).
  { split; intros X; [|symmetry; apply Z.div_unique with (st - 100); lia]. pose proof (Z.div_mod st 100). pose proof (Z.mod_pos_bound st 100). lia. }
  rewrite X. tauto.
Qed.
Lemma response_frame : forall st hd fs fr m, response_framing st hd fs fr -> plain_type fs -> r_headers m = fhs fs ->
  r_status m = st -> r_kind m = KResp hd -> recv_transferlength m = Ok (frame_of m fr).
Proof.
  intros st hd fs fr m F P H S K. unfold recv_transferlength. rewrite K, S. destruct F as [B|fr B F].
  - apply bodyless_ok in B. rewrite B. reflexivity.
  - assert (E : bodyless st hd = false) by (apply not_true_iff_false; rewrite bodyless_ok; exact B). rewrite E. apply fields_frame with fs; assumption.
Qed.
Lemma keep_ok : forall m h, head_ok h -> r_headers m = fhs (h_fields h) -> r_proto m = Some (h_major h, h_minor h) ->
  exists b, (b = true <-> head_persistent h) /\ handle_headers m = Ok (set_keep m (r_keep m && b)).
Proof.
  intros m h (_ & _ & _ & _ & _ & C & P) H V. unfold handle_headers. rewrite H.
  destruct (plain_ok _ P) as (o & -> & Ho). cbn [rbind]. destruct (conn_opts _ _ C) as (l & -> & Hl).
  assert (T : (match o with Some t => if str_eqb (mt_type t) (lit "multipart") then match mt_getitem t (lit "boundary") with Ok _ => Ok tt | Err _ => Err ProtocolError end else Ok tt | None => Ok tt end) = Ok tt).
  { destruct o as [t|]; [|reflexivity]. destruct (Ho t eq_refl) as [X _]. apply str_eqb_neq in X. rewrite X. reflexivity. }
  rewrite T. cbn [rbind]. rewrite V. set (b := version_le (h_major h, h_minor h) (1, 0) || existsb (str_eqb (lit "close")) l).
  exists (negb b). split.
  - rewrite negb_true_iff. unfold b. rewrite orb_false_iff. unfold head_persistent, persistent. rewrite <- Hl.
    unfold version_le. cbn [fst snd]. rewrite orb_false_iff, andb_false_iff, Z.ltb_ge, Z.eqb_neq, Z.leb_gt.
    rewrite not_true_iff_false. split; intros [A B]; (split; [lia|exact B]).
  - destruct b; cbn [negb]; [rewrite andb_false_r; reflexivity|]. rewrite andb_true_r. destruct m; reflexivity.
Qed.

(** ** ready for a message *)
Record ready (hd : bool) (m : rmsg) : Prop := mkReady {
  rd_kind : r_kind m = KResp hd; rd_mode : r_mode m = Some START; rd_heads : r_headers m = []; rd_curr : r_curr m = None;
  rd_chunked : r_chunked m = false; rd_len : r_len m = None; rd_bound : r_bound m = None; rd_buf : r_buf m = [] }.
(** after the header fields; fields that do not matter any more are left open *)
Definition heads_done (m : rmsg) (h : head) (fr : framing) (keep : bool) : rmsg :=
  let '(mode, ch, len, pos) := match fr with
                               | Empty => (None, false, Some 0, 0)
                               | Chunked => (Some CHUNK_HEAD, true, None, r_pos m)
                               | Length n => if n =? 0 then (None, false, Some 0, 0) else (Some DATA, false, Some n, 0)
                               | UntilClose => (Some DATA, false, None, 0)
                               end in
  mkR (r_kind m) mode (r_method m) (r_uri m) (h_status h) (h_reason h) (Some (h_major h, h_minor h)) (fhs (h_fields h)) None
      ch len pos None (r_bmatch m) keep [] (r_out m) (r_ws m) (r_fl m).
Lemma heads_recv : forall hd m h fr, ready hd m -> head_ok h -> response_framing (h_status h) hd (h_fields h) fr ->
  exists b, (b = true <-> head_persistent h) /\
  recv (set_mode (set_start m (r_method m) (r_uri m) (h_status h) (h_reason h) (Some (h_major h, h_minor h))) (Some HEADER))
       (ILines (map line (flat_map flines (h_fields h)) ++ [CRLF])) = Ok (heads_done m h fr (r_keep m && b)).
Proof.
  intros hd m h fr [K M Hs Cu Ch Le Bo Bu] Hok F. pose proof Hok as (_ & _ & _ & _ & Ff & _ & P).
  unfold recv. cbn [r_mode set_mode].
  rewrite recv_fields by (assumption || reflexivity || exact Cu). cbn [rbind]. cbn [r_headers set_mode set_start]. rewrite Hs.
  match goal with |- context [recv_transferlength ?x] => rewrite (response_frame (h_status h) hd (h_fields h) fr x F P) by (reflexivity || exact K) end.
  cbn [rbind].
  assert (X : forall m', r_headers m' = fhs (h_fields h) -> r_proto m' = Some (h_major h, h_minor h) -> exists b, (b = true <-> head_persistent h) /\ handle_headers m' = Ok (set_keep m' (r_keep m' && b))).
  { intros m' H1 H2. exact (keep_ok m' h Hok H1 H2). }
  destruct fr as [| |n|]; cbn [frame_of r_chunked r_len set_frame]; try (destruct (Z.eqb_spec n 0)).
  all: match goal with |- context [handle_headers ?x] => destruct (X x) as (b & B1 & B2); [reflexivity|reflexivity|] end;
    exists b; (split; [exact B1|]); rewrite B2; unfold heads_done, set_keep; cbn; rewrite ?Bo, ?Bu; try reflexivity.
  - destruct (Z.eqb_spec n 0); [|congruence]. reflexivity.
  - destruct (Z.eqb_spec n 0); [congruence|]. reflexivity.
Qed.

(** ** the status line and header fields *)
Lemma head_phase : forall hd m h fr bufs inn rest, ready hd m -> head_ok h -> response_framing (h_status h) hd (h_fields h) fr ->
  wf inn -> wf bufs -> bytes_of bufs inn = head_text h ++ rest ->
  exists b bufs' inn', (b = true <-> head_persistent h) /\ wf inn' /\ wf bufs' /\ bytes_of bufs' inn' = rest /\
    steps (mkC m bufs inn false) (mkC (finished (heads_done m h fr (r_keep m && b))) bufs' inn' false).
Proof.
  intros hd m h fr bufs inn rest Rd Hok F Wi Wb E. pose proof Rd as [K M Hs Cu Ch Le Bo Bu]. destruct (status_no_crlf h Hok) as [Nc Nn].
  set (m1 := set_mode (set_start m (r_method m) (r_uri m) (h_status h) (h_reason h) (Some (h_major h, h_minor h))) (Some HEADER)).
  assert (R1 : recv m (ILine (line (status_text h))) = Ok m1).
  { unfold recv. rewrite M, line_not_crlf by exact Nn. unfold recv_start. rewrite K, status_ok by exact Hok. reflexivity. }
  assert (T : head_text h ++ rest = line (status_text h) ++ block (flat_map flines (h_fields h)) ++ rest).
  { unfold head_text, message_text, block, line. rewrite fields_text_lines, app_nil_r, <- !app_assoc. reflexivity. }
  rewrite T in E.
  destruct (line_phase m (status_text h) (block (flat_map flines (h_fields h)) ++ rest) m1) with (inn := inn) (buf := bufs) as (b1 & i1 & W1 & W2 & E1 & S1); try assumption.
  { unfold recv_mode. rewrite M. reflexivity. }
  destruct (heads_recv hd m h fr Rd Hok F) as (b & Hb & R2). fold m1 in R2.
  assert (Fl : Forall (fun l => l <> [] /\ no_crlf l) (flat_map flines (h_fields h))).
  { destruct Hok as (_ & _ & _ & _ & Ff & _). apply Forall_flat_map. eapply Forall_impl; [|exact Ff]. intros f. apply flines_ok. }
  destruct (headers_phase m1 (flat_map flines (h_fields h)) rest _ eq_refl Fl R2 i1 b1 W1 W2 E1) as (b2 & i2 & W3 & W4 & E2 & S2).
  exists b, b2, i2. split; [exact Hb|]. split; [exact W3|]. split; [exact W4|]. split; [exact E2|].
  eapply steps_trans; [exact S1|exact S2].
Qed.

(** ** the chunked coding *)
Definition chk (m : rmsg) (mode : option rmode) (hs : headers) (len : option Z) (pos : Z) (out : str)
  (ws : list (option nat)) (fl : list bool) : rmsg :=
  mkR (r_kind m) mode (r_method m) (r_uri m) (r_status m) (r_reason m) (r_proto m) hs None
      true len pos None (r_bmatch m) (r_keep m) [] out ws fl.
Lemma chunk_phase : forall m body trailer wire, chunked body trailer wire -> interim (r_status m) = false ->
  forall hs len pos out ws fl bufs inn rest, Forall (eq false) fl -> wf inn -> wf bufs -> bytes_of bufs inn = wire ++ rest ->
  exists bufs' inn' ws' fl', wf inn' /\ wf bufs' /\ bytes_of bufs' inn' = rest /\
    steps (mkC (chk m (Some CHUNK_HEAD) hs len pos out ws fl) bufs inn false)
          (mkC (chk m None (add_fields hs trailer) (Some 0) 0 (out ++ body) ws' fl') bufs' inn' false).
Proof.
  intros m body trailer wire C I0. induction C as [l trailer Sl Ft|l d b trailer w Nd Sl C IH]; intros hs len pos out ws fl bufs inn rest Ff Wi Wb E.
  - destruct (size_line_ok l 0 Sl) as (Nc & _ & _). destruct (chunk_line l 0 Sl) as (x & Ec).
    destruct (line_phase (chk m (Some CHUNK_HEAD) hs len pos out ws fl) l (block (flat_map flines trailer) ++ rest)
                (chk m (Some CHUNK_TRAILER) hs (Some 0) 0 out ws fl)) with (inn := inn) (buf := bufs) as (b1 & i1 & W1 & W2 & E1 & S1); try assumption.
    { reflexivity. }
    { unfold recv. cbn [r_mode chk]. rewrite drop_last_line, Ec. reflexivity. }
    { rewrite E. unfold block, line. rewrite fields_text_lines, <- !app_assoc. reflexivity. }
    change (finished (chk m (Some CHUNK_TRAILER) hs (Some 0) 0 out ws fl)) with (chk m (Some CHUNK_TRAILER) hs (Some 0) 0 out ws fl) in S1.
    assert (Fl : Forall (fun l => l <> [] /\ no_crlf l) (flat_map flines trailer)).
    { apply Forall_flat_map. eapply Forall_impl; [|exact Ft]. intros f. apply flines_ok. }
    destruct (headers_phase (chk m (Some CHUNK_TRAILER) hs (Some 0) 0 out ws fl) (flat_map flines trailer) rest
                (chk m None (add_fields hs trailer) (Some 0) 0 out ws (tl fl))) with (inn := i1) (buf := b1) as (b2 & i2 & W3 & W4 & E2 & S2); try assumption.
    { reflexivity. }
    { unfold recv. cbn [r_mode chk]. rewrite recv_fields by (assumption || reflexivity). cbn [rbind r_headers]. unfold flush_then. cbn [r_fl set_heads].
      destruct fl as [|[|] fl]; [reflexivity|inversion Ff; discriminate|reflexivity]. }
    exists b2, i2, ws, (tl fl). split; [exact W3|]. split; [exact W4|]. split; [exact E2|]. rewrite app_nil_r.
    eapply steps_trans; [exact S1|]. unfold finished in S2. cbn [r_mode chk r_status] in S2. unfold interim in I0. rewrite I0 in S2. exact S2.
  - destruct (size_line_ok l _ Sl) as (Nc & _ & _). destruct (chunk_line l _ Sl) as (x & Ec).
    set (n := Z.of_nat (length d)) in *. assert (Pn : 0 < n) by (unfold n; destruct d; [congruence|cbn; lia]).
    destruct (line_phase (chk m (Some CHUNK_HEAD) hs len pos out ws fl) l (d ++ crlf ++ w ++ rest)
                (chk m (Some DATA) hs (Some n) 0 out ws fl)) with (inn := inn) (buf := bufs) as (b1 & i1 & W1 & W2 & E1 & S1); try assumption.
    { reflexivity. }
    { unfold recv. cbn [r_mode chk]. rewrite drop_last_line, Ec. cbn [rbind c_size]. destruct (Z.eqb_spec n 0); [lia|reflexivity]. }
    { rewrite E. unfold line. rewrite <- !app_assoc. reflexivity. }
    change (finished (chk m (Some DATA) hs (Some n) 0 out ws fl)) with (chk m (Some DATA) hs (Some n) 0 out ws fl) in S1.
    destruct (data_phase (2 * length d + 2 * length i1 + length ws + length fl + 0)%nat (chk m (Some DATA) hs (Some n) 0 out ws fl) n)
      with (mode := DATA) (pos := 0) (buf := @nil Z) (out := out) (ws := ws) (fl := fl) (bufs := b1) (inn := i1) (d := d) (rest := crlf ++ w ++ rest)
      as (b2 & i2 & ws2 & fl2 & W3 & W4 & E2 & F2 & S2); try assumption; try reflexivity.
    { left. auto. }
    { lia. }
    { unfold n. lia. }
    specialize (F2 eq_refl). subst fl2.
    change (upd (chk m (Some DATA) hs (Some n) 0 out ws fl) (Some DATA) 0 [] out ws fl) with (chk m (Some DATA) hs (Some n) 0 out ws fl) in S2.
    cbn [app] in S2.
    change (upd (chk m (Some DATA) hs (Some n) 0 out ws fl) (data_end (chk m (Some DATA) hs (Some n) 0 out ws fl)) n [] (out ++ d) ws2 fl)
      with (chk m (Some CHUNK_END) hs (Some n) n (out ++ d) ws2 fl) in S2.
    destruct (line_phase (chk m (Some CHUNK_END) hs (Some n) n (out ++ d) ws2 fl) [] (w ++ rest)
                (chk m (Some CHUNK_HEAD) hs (Some n) n (out ++ d) ws2 fl)) with (inn := i2) (buf := b2) as (b3 & i3 & W5 & W6 & E3 & S3); try assumption; try reflexivity.
    { intros a z X. destruct a; discriminate. }
    change (finished (chk m (Some CHUNK_HEAD) hs (Some n) n (out ++ d) ws2 fl)) with (chk m (Some CHUNK_HEAD) hs (Some n) n (out ++ d) ws2 fl) in S3.
    destruct (IH hs (Some n) n (out ++ d) ws2 fl b3 i3 rest) as (b4 & i4 & ws4 & fl4 & W7 & W8 & E4 & S4); try assumption.
    exists b4, i4, ws4, fl4. split; [exact W7|]. split; [exact W8|]. split; [exact E4|]. rewrite <- app_assoc in S4.
    eapply steps_trans; [exact S1|]. eapply steps_trans; [exact S2|]. eapply steps_trans; [exact S3|exact S4].
Qed.

(** ** one response *)
Record received (m m' : rmsg) (h : head) (body : str) (trailer : list field) (b : bool) : Prop := mkRec {
  rc_mode : r_mode m' = None; rc_status : r_status m' = h_status h; rc_reason : r_reason m' = h_reason h;
  rc_proto : r_proto m' = Some (h_major h, h_minor h); rc_heads : r_headers m' = fhs (h_fields h ++ trailer);
  rc_out : r_out m' = r_out m ++ body; rc_keep : r_keep m' = r_keep m && b; rc_kind : r_kind m' = r_kind m }.
Lemma fhs_app : forall a b, add_fields (fhs a) b = fhs (a ++ b).
Proof. intros a b. unfold fhs, add_fields. rewrite fold_left_app. reflexivity. Qed.
Lemma one_response : forall hd m h fr body trailer wire bufs inn rest,
  ready hd m -> head_ok h -> response_framing (h_status h) hd (h_fields h) fr -> interim (h_status h) = false ->
  framed fr body trailer wire -> fr <> UntilClose -> (fr = Chunked -> Forall (eq false) (r_fl m)) ->
  wf inn -> wf bufs -> bytes_of bufs inn = head_text h ++ wire ++ rest ->
  exists b m' bufs' inn', (b = true <-> head_persistent h) /\ wf inn' /\ wf bufs' /\ bytes_of bufs' inn' = rest /\
    received m m' h body trailer b /\ steps (mkC m bufs inn false) (mkC m' bufs' inn' false).
Proof.
  intros hd m h fr body trailer wire bufs inn rest Rd Hok F I0 Fr Nu Fl Wi Wb E.
  destruct (head_phase hd m h fr bufs inn (wire ++ rest) Rd Hok F Wi Wb E) as (b & b1 & i1 & Hb & W1 & W2 & E1 & S1).
  assert (Fin : forall x, r_status x = h_status h -> finished x = x).
  { intros x Hx. unfold finished. rewrite Hx. unfold interim in I0. rewrite I0. destruct (r_mode x); reflexivity. }
  rewrite Fin in S1 by (unfold heads_done; destruct fr as [| |n|]; try reflexivity; destruct (n =? 0); reflexivity).
  destruct fr as [| |n|].
  - destruct Fr as (-> & -> & ->). exists b, (heads_done m h Empty (r_keep m && b)), b1, i1.
    split; [exact Hb|]. split; [exact W1|]. split; [exact W2|]. split; [exact E1|]. split; [|exact S1].
    constructor; try reflexivity; cbn [heads_done r_headers r_out]; rewrite app_nil_r; reflexivity.
  - cbn [framed] in Fr. set (m1 := heads_done m h Chunked (r_keep m && b)) in *.
    destruct (chunk_phase m1 body trailer wire Fr I0 (fhs (h_fields h)) None (r_pos m) (r_out m) (r_ws m) (r_fl m) b1 i1 rest) as (b2 & i2 & ws2 & fl2 & W3 & W4 & E2 & S2); try assumption.
    { apply Fl. reflexivity. }
    exists b, (chk m1 None (add_fields (fhs (h_fields h)) trailer) (Some 0) 0 (r_out m ++ body) ws2 fl2), b2, i2.
    split; [exact Hb|]. split; [exact W3|]. split; [exact W4|]. split; [exact E2|]. split.
    + constructor; try reflexivity. cbn [chk r_headers]. apply fhs_app.
    + eapply steps_trans; [exact S1|]. exact S2.
  - destruct Fr as (Ln & -> & ->). destruct (Z.eqb_spec n 0) as [->|N0].
    + destruct body as [|c body]; [|cbn in Ln; lia]. exists b, (heads_done m h (Length 0) (r_keep m && b)), b1, i1.
      split; [exact Hb|]. split; [exact W1|]. split; [exact W2|]. split; [exact E1|]. split; [|exact S1].
      constructor; try reflexivity; cbn [heads_done r_headers r_out Z.eqb]; rewrite app_nil_r; reflexivity.
    + set (m1 := heads_done m h (Length n) (r_keep m && b)) in *.
      assert (M1 : m1 = mkR (r_kind m) (Some DATA) (r_method m) (r_uri m) (h_status h) (h_reason h) (Some (h_major h, h_minor h)) (fhs (h_fields h)) None
        false (Some n) 0 None (r_bmatch m) (r_keep m && b) [] (r_out m) (r_ws m) (r_fl m)).
      { unfold m1, heads_done. destruct (Z.eqb_spec n 0); [congruence|]. reflexivity. }
      destruct (data_phase (2 * length body + 2 * length i1 + length (r_ws m) + length (r_fl m) + 0)%nat m1 n)
        with (mode := DATA) (pos := 0) (buf := @nil Z) (out := r_out m) (ws := r_ws m) (fl := r_fl m) (bufs := b1) (inn := i1) (d := body) (rest := rest)
        as (b2 & i2 & ws2 & fl2 & W3 & W4 & E2 & F2 & S2); try assumption; try lia.
      { rewrite M1. reflexivity. }
      { rewrite M1. reflexivity. }
      { rewrite M1. exact I0. }
      { left. repeat split. lia. }
      { cbn. lia. }
      exists b, (upd m1 (data_end m1) n [] (r_out m ++ [] ++ body) ws2 fl2), b2, i2.
      split; [exact Hb|]. split; [exact W3|]. split; [exact W4|]. split; [exact E2|]. split.
      * rewrite M1. constructor; try reflexivity. cbn [upd r_headers]. rewrite app_nil_r. reflexivity.
      * eapply steps_trans; [exact S1|]. replace m1 with (upd m1 (Some DATA) 0 [] (r_out m) (r_ws m) (r_fl m)) at 1 by (rewrite M1; reflexivity). exact S2.
  - congruence.
Qed.

(** ** the responses before it *)
Lemma interim_ok : forall st, interim st = true <-> interim_status st.
Proof. intros st. unfold interim, interim_status. rewrite !andb_true_iff, !Z.leb_le, negb_true_iff, Z.eqb_neq. tauto. Qed.
Lemma interim_phase : forall hd hs m bufs inn rest, ready hd m ->
  Forall (fun h => head_ok h /\ interim_status (h_status h)) hs ->
  wf inn -> wf bufs -> bytes_of bufs inn = concat (map head_text hs) ++ rest ->
  exists b m' bufs' inn', (b = true <-> Forall head_persistent hs) /\ wf inn' /\ wf bufs' /\ bytes_of bufs' inn' = rest /\
    ready hd m' /\ r_keep m' = r_keep m && b /\ r_out m' = r_out m /\ r_ws m' = r_ws m /\ r_fl m' = r_fl m /\
    steps (mkC m bufs inn false) (mkC m' bufs' inn' false).
Proof.
  intros hd. induction hs as [|h hs IH]; intros m bufs inn rest Rd F Wi Wb E.
  - exists true, m, bufs, inn. rewrite andb_true_r. repeat split; try assumption; try constructor; try apply Rd.
  - inversion F as [|? ? [Hok Hi] F']; subst. cbn [map concat] in E. rewrite <- app_assoc in E.
    assert (Fr : response_framing (h_status h) hd (h_fields h) Empty) by (constructor; left; apply Hi).
    destruct (head_phase hd m h Empty bufs inn _ Rd Hok Fr Wi Wb E) as (b & b1 & i1 & Hb & W1 & W2 & E1 & S1).
    set (m1 := finished (heads_done m h Empty (r_keep m && b))) in *.
    assert (M1 : m1 = start_receiving (heads_done m h Empty (r_keep m && b))).
    { unfold m1, finished. cbn [r_mode heads_done r_status]. apply interim_ok in Hi. unfold interim in Hi. rewrite Hi. reflexivity. }
    destruct (IH m1 b1 i1 rest) as (b2 & m2 & b3 & i3 & Hb2 & W3 & W4 & E2 & R2 & K2 & O2 & Ws2 & Fl2 & S2); try assumption.
    { rewrite M1. destruct Rd. constructor; try reflexivity; try assumption. }
    rewrite M1 in K2, O2, Ws2, Fl2. cbn in K2, O2, Ws2, Fl2.
    exists (b && b2), m2, b3, i3. split.
    { rewrite andb_true_iff, Hb, Hb2. split; [intros [X Y]; constructor; assumption|intros X; inversion X; auto]. }
    split; [exact W3|]. split; [exact W4|]. split; [exact E2|]. split; [exact R2|]. split; [rewrite K2, andb_assoc; reflexivity|].
    split; [exact O2|]. split; [exact Ws2|]. split; [exact Fl2|]. eapply steps_trans; [exact S1|exact S2].
Qed.
(** blank lines *)
Lemma blank_phase : forall hd k m bufs inn rest, ready hd m -> wf inn -> wf bufs -> bytes_of bufs inn = concat (repeat crlf k) ++ rest ->
  exists bufs' inn', wf inn' /\ wf bufs' /\ bytes_of bufs' inn' = rest /\ steps (mkC m bufs inn false) (mkC m bufs' inn' false).
Proof.
  intros hd. induction k as [|k IH]; intros m bufs inn rest Rd Wi Wb E.
  - exists bufs, inn. repeat split; try assumption. constructor.
  - cbn [repeat concat] in E. rewrite <- app_assoc in E.
    destruct (line_phase m [] (concat (repeat crlf k) ++ rest) m) with (inn := inn) (buf := bufs) as (b1 & i1 & W1 & W2 & E1 & S1); try assumption.
    { unfold recv_mode. rewrite (rd_mode hd m Rd). reflexivity. }
    { intros a z X. destruct a; discriminate. }
    { unfold recv. rewrite (rd_mode hd m Rd). reflexivity. }
    assert (Fn : finished m = m) by (unfold finished; rewrite (rd_mode hd m Rd); reflexivity). rewrite Fn in S1.
    destruct (IH m b1 i1 rest) as (b2 & i2 & W3 & W4 & E2 & S2); try assumption.
    exists b2, i2. split; [exact W3|]. split; [exact W4|]. split; [exact E2|]. eapply steps_trans; [exact S1|exact S2].
Qed.
