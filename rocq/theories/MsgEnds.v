(** Proofs for C72-C78: runs of the client. *)
From Verif Require Import Py Num UriModel UriRel HttpModel HttpSpec HttpProofs HttpLex HttpParamModel HttpParamSpec
  HttpProps HttpParamProofs HttpParamMain MsgModel MsgSpec MsgLex MsgHead MsgRecv MsgData MsgStart MsgWhole.

Lemma ends_steps : forall c c' o, steps c c' -> ends c' o -> ends c o.
Proof. induction 1 as [|x y z E H IH]; intros K; [exact K|]. eapply en_next; [exact E|apply IH; exact K]. Qed.
Lemma ends_fun : forall c o1, ends c o1 -> forall o2, ends c o2 -> o1 = o2.
Proof.
  induction 1 as [c o E N|c c' o E H IH]; intros o2 H2; inversion H2 as [? ? E2 N2|? ? ? E2 H3]; subst.
  - reflexivity.
  - exfalso. eapply N. exact E2.
  - exfalso. eapply N2. exact E.
  - apply IH. congruence.
Qed.
Lemma ends_through : forall c c', steps c c' -> forall o, ends c o -> ends c' o.
Proof.
  induction 1 as [|x y z E H IH]; intros o K; [exact K|]. apply IH. inversion K as [? ? E2 N2|? ? ? E2 H3]; subst; [exfalso; eapply N2; exact E|].
  rewrite E in E2. inversion E2; subst. exact H3.
Qed.
Lemma complete_ends : forall m bufs inn, r_mode m = None -> ends (mkC m bufs inn false) (Complete (mkC m bufs inn false)).
Proof.
  intros m bufs inn M. apply en_last; [|discriminate]. unfold conn_step. cbn [c_recv c_msg]. unfold recv_mode. rewrite M. reflexivity.
Qed.
Lemma first_packet : forall m buf inn o, inn <> [] -> wf inn -> wf buf ->
  (forall buf' inn', wf buf' -> wf inn' -> bytes_of buf' inn' = bytes_of buf inn -> ends (mkC m buf' inn' false) o) ->
  ends (mkC m buf inn true) o.
Proof.
  intros m buf [|p inn] o N Wi Wb H; [congruence|]. inversion Wi; subst. eapply en_next; [reflexivity|]. cbn [c_msg c_buf].
  apply H; [apply wf_app; [exact Wb|constructor; [assumption|constructor]]|assumption|].
  unfold bytes_of. rewrite concat_app. cbn [concat]. rewrite app_nil_r, <- app_assoc. reflexivity.
Qed.

(** ** more packets *)
Definition ext (q : str) (c : conn) : conn := mkC (c_msg c) (c_buf c) (c_in c ++ [q]) (c_recv c).
Definition ext_o (q : str) (o : outcome) : outcome :=
  match o with Next c => Next (ext q c) | Complete c => Complete (ext q c) | Closed c => Closed (ext q c) | Failed e => Failed e end.
Lemma give_ext : forall q c buf i, give (ext q c) buf i = ext_o q (give c buf i).
Proof. intros q c buf i. unfold give. cbn [c_msg c_in ext]. destruct (recv (c_msg c) i); reflexivity. Qed.
Lemma step_ext : forall q c, (c_recv c = true -> c_in c <> []) -> conn_step (ext q c) = ext_o q (conn_step c).
Proof.
  intros q [m buf inn rv] H. unfold conn_step. cbn [ext c_recv c_in c_msg c_buf] in *. destruct rv.
  - destruct inn as [|p l]; [exfalso; apply H; reflexivity|]. reflexivity.
  - assert (G : forall b i, give (mkC m buf (inn ++ [q]) false) b i = ext_o q (give (mkC m buf inn false) b i)) by (intros; apply (give_ext q (mkC m buf inn false))).
    destruct (recv_mode m) as [n|]; [|reflexivity].
    destruct (n =? RECV_HEADERS).
    { destruct (find CRLF (concat buf)) as [[|k]|]; [apply G| |reflexivity]. destruct (find (CRLF ++ CRLF) (concat buf)); [apply G|reflexivity]. }
    destruct (n =? RECV_LINE).
    { destruct (find CRLF (concat buf)); [apply G|reflexivity]. }
    destruct (n =? RECV_ALL).
    { destruct buf; [reflexivity|apply G]. }
    destruct (n =? 0); [apply G|]. destruct (0 <? n); [|reflexivity].
    destruct buf as [|d r]; [reflexivity|]. destruct (Z.of_nat (length d) <=? n); apply G.
Qed.
Lemma ends_ext : forall q c0 o, ends c0 o -> forall c, c0 = ext q c ->
  (exists c', ends c (Closed c') /\ steps c c' /\ c_in c' = [] /\ steps (ext q c) (ext q c')) \/ (exists o', ends c o' /\ o = ext_o q o').
Proof.
  intros q c0 o H. induction H as [c0 o E N|c0 c1 o E H IH]; intros c ->.
  - destruct (c_recv c) eqn:R, (c_in c) eqn:Q; try (
      rewrite step_ext in E by congruence; right; exists (conn_step c); split; [apply en_last; [reflexivity|]|symmetry; exact E];
      intros c' X; rewrite X in E; cbn in E; eapply N; symmetry; exact E).
    left. exists c. split; [apply en_last; [unfold conn_step; rewrite R, Q; reflexivity|discriminate]|]. split; [constructor|]. split; [exact Q|constructor].
  - destruct (c_recv c) eqn:R, (c_in c) eqn:Q; try (
      pose proof E as E0; rewrite step_ext in E by congruence; destruct (conn_step c) as [c2| | |] eqn:Sc; try discriminate; cbn in E; inversion E; subst;
      destruct (IH c2 eq_refl) as [(c' & X1 & X2 & X3 & X4)|(o' & X1 & X2)];
      [left; exists c'; split; [eapply en_next; eassumption|]; split; [eapply st_step; eassumption|]; split; [exact X3|]; eapply st_step; [exact E0|exact X4]
      |right; exists o'; split; [eapply en_next; eassumption|exact X2]]).
    left. exists c. split; [apply en_last; [unfold conn_step; rewrite R, Q; reflexivity|discriminate]|]. split; [constructor|]. split; [exact Q|constructor].
Qed.

(** ** what has been written stays *)
Definition grows (m m' : rmsg) : Prop := exists t, r_out m' = r_out m ++ t.
Lemma grows_same : forall m m', r_out m' = r_out m -> grows m m'.
Proof. intros m m' E. exists []. rewrite app_nil_r. exact E. Qed.
Lemma grows_trans : forall a b c, grows a b -> grows b c -> grows a c.
Proof. intros a b c (t & E) (u & F). exists (t ++ u). rewrite F, E, app_assoc. reflexivity. Qed.
Lemma as_protocol_ok : forall A (r : res A) a, as_protocol r = Ok a -> r = Ok a.
Proof. intros A [x|e] a H; [exact H|]. destruct e; discriminate. Qed.
Lemma bind_ok : forall A B (r : res A) (f : A -> res B) b, rbind r f = Ok b -> exists a, r = Ok a /\ f a = Ok b.
Proof. intros A B [a|e] f b H; [|discriminate]. exists a. split; [reflexivity|exact H]. Qed.
Lemma start_out : forall m l m', recv_start m l = Ok m' -> r_out m' = r_out m.
Proof.
  intros m l m' H. unfold recv_start in H. destruct (r_kind m).
  - unfold request_start in H. destruct (bsplit (drop_last 2 l)) as [|a [|u [|v [|]]]]; try discriminate.
    apply as_protocol_ok in H. apply bind_ok in H as (x & _ & H). apply bind_ok in H as (p & _ & H). inversion H. reflexivity.
  - unfold response_start in H. apply bind_ok in H as (w & _ & H).
    destruct (match require_http_version w with Ok (v, r) => (Some v, r) | Err _ => (None, w) end) as [p w'].
    apply bind_ok in H as ([o w2] & _ & H). inversion H. reflexivity.
Qed.
Lemma header_out : forall m l m', recv_header m l = Ok m' -> r_out m' = r_out m.
Proof.
  intros m l m' H. unfold recv_header in H. destruct (str_eqb l CRLF); [inversion H; reflexivity|].
  destruct (parse_lws l) as [x|], (r_curr m) as [[n v]|]; try (inversion H; reflexivity);
    destruct (bsplit1 58 l) as [[a b]|]; try discriminate; inversion H; reflexivity.
Qed.
Lemma lines_out : forall ls m m', recv_lines m ls = Ok m' -> r_out m' = r_out m.
Proof.
  induction ls as [|l ls IH]; intros m m' H; cbn [recv_lines] in H; [inversion H; reflexivity|].
  apply bind_ok in H as (m1 & H1 & H). rewrite (IH _ _ H). exact (header_out _ _ _ H1).
Qed.
Lemma msg_frame_out : forall m m', message_recv_transferlength m = Ok m' -> r_out m' = r_out m.
Proof.
  intros m m' H. unfold message_recv_transferlength in H. apply bind_ok in H as (e & _ & H). cbv zeta in H.
  assert (X : forall o, (let! cl := get_content_length (r_headers m) in
      match cl with
      | Some n => Ok (set_frame m false (Some n) (r_pos m) (r_bound m) (r_bmatch m))
      | None =>
          let! ct := get_content_type (r_headers m) in
          match ct with
          | Some t =>
              if is_byteranges t then
                let! _ := get_connection (r_headers m) in
                match mt_getitem t (lit "boundary") with
                | Ok b => Ok (set_keep (set_frame m false None (r_pos m) (Some (CRLF ++ lit "--" ++ bstrip b ++ lit "--")) []) false)
                | Err _ => Err ProtocolError
                end
              else Ok (set_frame m false None (r_pos m) (r_bound m) (r_bmatch m))
          | None => Ok (set_frame m false None (r_pos m) (r_bound m) (r_bmatch m))
          end
      end) = Ok o -> r_out o = r_out m).
  { intros o X. apply bind_ok in X as ([n|] & _ & X); [inversion X; reflexivity|]. apply bind_ok in X as ([t|] & _ & X); [|inversion X; reflexivity].
    destruct (is_byteranges t); [|inversion X; reflexivity]. apply bind_ok in X as (c & _ & X). destruct (mt_getitem t (lit "boundary")); [|discriminate]. inversion X. reflexivity. }
  destruct e as [l|]; [|exact (X _ H)].
  destruct (match l with [te] => str_eqb (te_token te) (lit "identity") | _ => false end); [exact (X _ H)|].
  destruct (rev l) as [|te r]; [discriminate|]. apply bind_ok in H as (u & _ & H). inversion H. reflexivity.
Qed.
Lemma frame_out : forall m m', recv_transferlength m = Ok m' -> r_out m' = r_out m.
Proof.
  intros m m' H. unfold recv_transferlength in H. destruct (r_kind m) as [|hd].
  - apply bind_ok in H as (m1 & H1 & H). apply msg_frame_out in H1. destruct (r_len m1), (r_chunked m1); inversion H; subst; exact H1.
  - destruct (bodyless (r_status m) hd); [inversion H; reflexivity|apply msg_frame_out; exact H].
Qed.
Lemma handle_out : forall m m', handle_headers m = Ok m' -> r_out m' = r_out m.
Proof.
  intros m m' H. unfold handle_headers in H. apply bind_ok in H as (a & _ & H). apply bind_ok in H as (b & _ & H). apply bind_ok in H as (c & _ & H).
  destruct (r_proto m) as [p|]; [|discriminate]. destruct (version_le p (1, 0) || existsb (str_eqb (lit "close")) c); inversion H; reflexivity.
Qed.
Lemma flush_out : forall m, r_out (flush_then m) = r_out m.
Proof. intros m. unfold flush_then. destruct (r_fl m) as [|[|] l]; reflexivity. Qed.
Lemma buffered_out : forall m m', recv_buffered m = Ok m' -> exists t, r_out m' = r_out m ++ t.
Proof.
  intros m m' H. unfold recv_buffered in H.
  assert (W : forall f buf out ws buf' out' ws', write_loop f buf out ws = (buf', out', ws') -> exists t, out' = out ++ t).
  { induction f as [|f IH]; intros buf out ws buf' out' ws' E; destruct buf as [|c buf]; cbn [write_loop] in E; try (inversion E; subst; exists []; rewrite app_nil_r; reflexivity).
    destruct ws as [|[k|] ws]; [inversion E; subst; eexists; reflexivity| |inversion E; subst; exists []; rewrite app_nil_r; reflexivity].
    apply IH in E as (t & ->). eexists. rewrite <- app_assoc. reflexivity. }
  destruct (write_loop (length (r_buf m)) (r_buf m) (r_out m) (r_ws m)) as [[buf out] ws] eqn:E. apply W in E as (t & ->). exists t.
  destruct buf; [|inversion H; reflexivity]. cbn [set_io r_chunked r_len r_pos] in H. destruct (r_chunked m).
  - destruct (r_len m) as [n|]; [|discriminate]. inversion H. reflexivity.
  - destruct (r_len m) as [n|]; [|inversion H; reflexivity]. destruct (n <=? r_pos m); inversion H; subst; [rewrite flush_out|]; reflexivity.
Qed.
Lemma data_out : forall m d m', recv_data m d = Ok m' -> grows m m'.
Proof.
  intros m d m' H. unfold recv_data in H. cbv zeta in H. apply buffered_out in H as (t & E). exists t. rewrite E. cbn [set_io r_out]. f_equal.
  destruct (r_bound m) as [bd|]; [|reflexivity]. destruct (scan bd (r_bmatch m) d) as [[i|] ms]; reflexivity.
Qed.
Lemma recv_out : forall m i m', recv m i = Ok m' -> grows m m'.
Proof.
  intros m i m' H. unfold recv in H.
  destruct (r_mode m) as [[| | | | | |]|], i as [s|ls|s|]; try discriminate; try (apply buffered_out in H; exact H).
  - destruct (str_eqb s CRLF); [inversion H; apply grows_same; reflexivity|]. apply bind_ok in H as (m1 & H1 & H). inversion H; subst.
    apply grows_same. cbn [set_mode r_out]. exact (start_out _ _ _ H1).
  - apply bind_ok in H as (m1 & H1 & H). apply bind_ok in H as (m2 & H2 & H). apply handle_out in H. apply lines_out in H1. apply frame_out in H2.
    apply grows_same. rewrite H. rewrite <- H1, <- H2. destruct (r_chunked m2); [reflexivity|]. destruct (r_len m2) as [n|]; [|reflexivity]. destruct (n =? 0); reflexivity.
  - apply bind_ok in H as (c & H1 & H). inversion H. apply grows_same. reflexivity.
  - destruct s; [inversion H; apply grows_same; reflexivity|]. apply data_out in H. exact H.
  - inversion H. apply grows_same. reflexivity.
  - destruct (str_eqb s CRLF); [|discriminate]. inversion H. apply grows_same. reflexivity.
  - apply bind_ok in H as (m1 & H1 & H). inversion H. apply grows_same. rewrite flush_out. exact (lines_out _ _ _ H1).
Qed.
Lemma finished_out : forall m, r_out (finished m) = r_out m.
Proof. intros m. unfold finished. destruct (r_mode m); [reflexivity|]. destruct ((100 <=? r_status m) && (r_status m <=? 199) && negb (r_status m =? 101)); reflexivity. Qed.
Lemma give_out : forall c b i c', give c b i = Next c' -> grows (c_msg c) (c_msg c').
Proof.
  intros c b i c' H. unfold give in H. destruct (recv (c_msg c) i) as [m|e] eqn:E; [|discriminate]. inversion H; subst. cbn [c_msg].
  apply recv_out in E as (t & E). exists t. rewrite finished_out. exact E.
Qed.
Lemma step_out : forall c c', conn_step c = Next c' -> grows (c_msg c) (c_msg c').
Proof.
  intros c c' H. unfold conn_step in H. destruct (c_recv c).
  - destruct (c_in c); [discriminate|]. inversion H. apply grows_same. reflexivity.
  - cbv zeta in H. assert (W : Next (mkC (c_msg c) (c_buf c) (c_in c) true) = Next c' -> grows (c_msg c) (c_msg c')) by (intros X; inversion X; apply grows_same; reflexivity).
    destruct (recv_mode (c_msg c)) as [n|]; [|discriminate].
    destruct (n =? RECV_HEADERS).
    { destruct (find CRLF (concat (c_buf c))) as [[|k]|]; [exact (give_out _ _ _ _ H)| |exact (W H)].
      destruct (find (CRLF ++ CRLF) (concat (c_buf c))); [exact (give_out _ _ _ _ H)|exact (W H)]. }
    destruct (n =? RECV_LINE).
    { destruct (find CRLF (concat (c_buf c))); [exact (give_out _ _ _ _ H)|exact (W H)]. }
    destruct (n =? RECV_ALL).
    { destruct (c_buf c); [exact (W H)|exact (give_out _ _ _ _ H)]. }
    destruct (n =? 0); [exact (give_out _ _ _ _ H)|]. destruct (0 <? n); [|discriminate].
    destruct (c_buf c) as [|d r]; [exact (W H)|]. destruct (Z.of_nat (length d) <=? n); exact (give_out _ _ _ _ H).
Qed.
Lemma ends_out : forall c o, ends c o -> forall c', o = Complete c' -> grows (c_msg c) (c_msg c').
Proof.
  induction 1 as [c o E N|c c1 o E H IH]; intros c' ->.
  - assert (c' = c); [|subst; apply grows_same; reflexivity]. unfold conn_step in E. destruct (c_recv c); [destruct (c_in c); discriminate|]. cbv zeta in E.
    assert (G : forall b i, give c b i <> Complete c') by (intros b i X; unfold give in X; destruct (recv (c_msg c) i); discriminate).
    destruct (recv_mode (c_msg c)) as [n|]; [|congruence]. exfalso.
    destruct (n =? RECV_HEADERS).
    { destruct (find CRLF (concat (c_buf c))) as [[|k]|]; [exact (G _ _ E)| |discriminate].
      destruct (find (CRLF ++ CRLF) (concat (c_buf c))); [exact (G _ _ E)|discriminate]. }
    destruct (n =? RECV_LINE).
    { destruct (find CRLF (concat (c_buf c))); [exact (G _ _ E)|discriminate]. }
    destruct (n =? RECV_ALL).
    { destruct (c_buf c); [discriminate|exact (G _ _ E)]. }
    destruct (n =? 0); [exact (G _ _ E)|]. destruct (0 <? n); [|discriminate].
    destruct (c_buf c) as [|d r]; [discriminate|]. destruct (Z.of_nat (length d) <=? n); exact (G _ _ E).
  - eapply grows_trans; [exact (step_out _ _ E)|]. apply IH. reflexivity.
Qed.
