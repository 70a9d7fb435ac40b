(** Proofs for C72-C78: whole messages that are sent. *)
From Verif Require Import Py Num UriModel UriRel HttpModel HttpSpec HttpProofs HttpLex HttpParamModel HttpParamSpec
  HttpProps HttpParamProofs HttpParamMain BswModel BswProps MsgModel MsgSpec MsgLex MsgHead MsgRecv MsgData MsgStart MsgWhole MsgEnds MsgMain MsgSend MsgLength MsgBody.

(** headers that were set one after the other *)
Definition setting := (str * option str * bool)%type.
Definition setting_ok (s : setting) : Prop := token (fst (fst s)) /\ forall v, snd (fst s) = Some v -> no_crlf v.
Definition set_all (l : list setting) : headers := fold_left (fun hs s => set_header hs (fst (fst s)) (snd (fst s)) (snd s)) l [].
Lemma set_all_ok : forall l, Forall setting_ok l -> hs_ok (set_all l).
Proof.
  intros l F. unfold set_all. assert (X : forall hs, hs_ok hs -> hs_ok (fold_left (fun hs s => set_header hs (fst (fst s)) (snd (fst s)) (snd s)) l hs)).
  { induction F as [|s l [H1 H2] F IH]; intros hs Ho; [exact Ho|]. cbn [fold_left]. apply IH. apply set_hs_ok; assumption. }
  apply X, hs_ok_nil.
Qed.
Definition body_bytes (b : body) : str := match b with NoBody => [] | Bytes d => d | Stream s => s_rest s end.
(** what the caller may say about the length: the chunked coding for a body; a Content-Length that is right, where the
    code does not check it *)
Definition te_given (hs : headers) (b : body) : Prop :=
  get_header_list hs (lit "Transfer-Encoding") = None \/
  exists te, get_header_list hs (lit "Transfer-Encoding") = Some [te] /\ lower te = lit "chunked" /\ b <> NoBody.
Definition cl_given (hs : headers) (right : Z -> Prop) : Prop :=
  get_header_list hs (lit "Content-Length") = None \/
  exists d, get_header_list hs (lit "Content-Length") = Some [d] /\ d <> [] /\ Forall dec_digit d /\ right (decimal d).
Definition request_right (b : body) (n : Z) : Prop :=
  match b with Bytes _ => True | _ => n = Z.of_nat (length (body_bytes b)) end.
Definition response_right (b : body) (n : Z) : Prop :=
  match b with Stream s => n = Z.of_nat (length (s_rest s)) | _ => True end.

Lemma view_given : forall hs b right, hs_ok hs -> te_given hs b -> cl_given hs right ->
  exists te cl, view hs te cl /\ (te <> None -> b <> NoBody) /\ (forall d, cl = Some d -> right (decimal d)).
Proof.
  intros hs b right Ho T C.
  destruct T as [T|(te & T & T2 & T3)]; destruct C as [C|(d & C & C2 & C3 & C4)];
    [exists None, None|exists None, (Some d)|exists (Some te), None|exists (Some te), (Some d)]; (split; [constructor; try assumption; try discriminate|split; try discriminate; try congruence]).
  all: try (intros x E; inversion E; subst; auto). all: auto.
Qed.
Lemma new_content : forall k hs b, content (new_smsg k hs b) = body_bytes b.
Proof. intros k hs [|d|s]; reflexivity. Qed.
Lemma new_blen : forall k hs b, blen_ok (new_smsg k hs b).
Proof. intros k hs [|d|s] n E; cbn in E; try discriminate. inversion E; subst. split; reflexivity. Qed.
Lemma new_has : forall k hs b, b <> NoBody -> has_body (new_smsg k hs b) = true.
Proof. intros k hs [|d|s] H; [congruence|reflexivity|reflexivity]. Qed.

(** the state in which the length is decided *)
Definition begun (protocol : option http_version) (m : smsg) : smsg :=
  mkS (s_kind m) (s_headers m) (s_body m) (s_blen m)
      (match protocol with Some v => if version_le v (1, 0) then false else s_keep m | None => s_keep m end)
      protocol (s_chunked m) (s_len m) (s_tbody m) (s_pos m) (s_done m).
Definition ended (m : smsg) : smsg :=
  let m := s_set_pos m (s_body m) 0 false in
  let m := match s_chunked m, s_len m with false, None => s_set_keep m false | _, _ => m end in
  if s_keep m then m else s_set_headers m (set_header (s_headers m) (lit "Connection") (Some (lit "close")) false).
Lemma start_eq : forall maxra protocol m, start_sending maxra protocol m = let! m1 := send_transferlength maxra (begun protocol m) in Ok (ended m1).
Proof.
  intros maxra protocol m. unfold start_sending, begun. match goal with |- rbind ?a _ = _ => destruct a end; [|reflexivity]. cbn [rbind]. unfold ended.
  match goal with |- context [s_keep ?x] => destruct (s_keep x) end; reflexivity.
Qed.
Record ended_ok (m m' : smsg) : Prop := mkEnded {
  e_kind : s_kind m' = s_kind m; e_body : s_body m' = s_body m; e_blen : s_blen m' = s_blen m; e_proto : s_proto m' = s_proto m;
  e_chunked : s_chunked m' = s_chunked m; e_len : s_len m' = s_len m; e_tbody : s_tbody m' = s_tbody m; e_pos : s_pos m' = 0; e_done : s_done m' = false;
  e_keep : s_keep m' = true -> s_keep m = true /\ s_headers m' = s_headers m /\ (s_chunked m = true \/ s_len m <> None);
  e_close : s_keep m' = false -> s_headers m' = set_header (s_headers m) (lit "Connection") (Some (lit "close")) false }.
Lemma ended_is : forall m, ended_ok m (ended m).
Proof.
  intros m. unfold ended. cbn [s_set_pos s_chunked s_len]. destruct (s_chunked m) eqn:Ec; [|destruct (s_len m) eqn:El].
  all: cbn [s_set_pos s_keep s_set_keep]. 1,2: destruct (s_keep m) eqn:Ek.
  all: constructor; cbn [s_set_pos s_set_keep s_set_headers s_kind s_body s_blen s_proto s_chunked s_len s_tbody s_pos s_done s_keep s_headers];
    try congruence; try reflexivity; try discriminate.
  - intros _. auto.
  - intros _. split; [exact Ek|]. split; [reflexivity|]. right. congruence.
Qed.
Lemma ended_view : forall m m' te cl, ended_ok m m' -> view (s_headers m) te cl -> view (s_headers m') te cl.
Proof.
  intros m m' te cl E V. destruct (s_keep m') eqn:K.
  - destruct (e_keep _ _ E K) as (_ & -> & _). exact V.
  - rewrite (e_close _ _ E K). apply view_close. exact V.
Qed.
Lemma ended_content : forall m m', ended_ok m m' -> content m' = content m /\ has_body m' = has_body m.
Proof. intros m m' E. unfold content, has_body. rewrite (e_body _ _ E). auto. Qed.
Lemma ended_settled : forall m m' te cl fr, ended_ok m m' -> settled m te cl fr -> settled m' te cl fr.
Proof.
  intros m m' te cl fr E [[V B T C] F]. destruct (ended_content _ _ E) as [Ec Eb]. split.
  - constructor.
    + eapply ended_view; [exact E|exact V].
    + intros n Hn. rewrite (e_blen _ _ E) in Hn. rewrite Ec, Eb. apply B. exact Hn.
    + rewrite Eb. exact T.
    + rewrite (e_blen _ _ E), Ec. exact C.
  - destruct fr; rewrite ?(e_chunked _ _ E), ?(e_len _ _ E), ?(e_tbody _ _ E), ?Eb, ?Ec, ?(e_blen _ _ E), ?(e_proto _ _ E); exact F.
Qed.
(** the Connection field: [close], or what it was *)
Definition connection_sent (hs : headers) (fs : list field) (protocol : option http_version) (fr : framing) : Prop :=
  values (lit "Connection") fs [lit "close"] \/
  (values (lit "Connection") fs (list_of (get_header_list hs (lit "Connection"))) /\ fr <> UntilClose /\
   (forall v, protocol = Some v -> version_le v (1, 0) = false)).
Definition others_sent (hs : headers) (fs : list field) : Prop :=
  forall name, lower name <> lit "transfer-encoding" -> lower name <> lit "content-length" -> lower name <> lit "connection" ->
  values name fs (list_of (get_header_list hs name)).
Lemma connection_ok : forall hs m m' protocol fr, ended_ok m m' -> hs_ok (s_headers m') -> others hs (s_headers m) ->
  (s_keep m = true -> forall v, protocol = Some v -> version_le v (1, 0) = false) -> (fr = UntilClose -> s_chunked m = false /\ s_len m = None) ->
  connection_sent hs (emitted (s_headers m')) protocol fr.
Proof.
  intros hs m m' protocol fr E Ho O K U. pose proof (emitted_values _ (lit "Connection") Ho) as V. destruct (s_keep m') eqn:Ek.
  - right. destruct (e_keep _ _ E Ek) as (K1 & Hh & K2). rewrite Hh in V at 2. rewrite O in V by (vm_compute; discriminate).
    split; [exact V|]. split; [|apply K; exact K1]. intros ->. destruct (U eq_refl). destruct K2; congruence.
  - left. rewrite (e_close _ _ E Ek) in V at 2. rewrite get_set in V. change (str_eqb (b_lower (lit "Connection")) (b_lower (lit "Connection"))) with true in V.
    cbv iota in V. destruct (get_header_list (s_headers m) (lit "Connection")); exact V.
Qed.
Lemma others_ok : forall hs m m', ended_ok m m' -> hs_ok (s_headers m') -> others hs (s_headers m) -> others_sent hs (emitted (s_headers m')).
Proof.
  intros hs m m' E Ho O name N1 N2 N3. pose proof (emitted_values _ name Ho) as V.
  assert (X : get_header_list (s_headers m') name = get_header_list hs name); [|rewrite X in V; exact V].
  rewrite <- O by assumption. destruct (s_keep m') eqn:Ek.
  - destruct (e_keep _ _ E Ek) as (_ & -> & _). reflexivity.
  - rewrite (e_close _ _ E Ek), get_set. change (b_lower (lit "Connection")) with (lit "connection"). change (b_lower name) with (lower name).
    apply str_eqb_neq in N3. rewrite N3. reflexivity.
Qed.
Lemma view_values : forall hs te cl, view hs te cl ->
  values TE (emitted hs) (list_of (one te)) /\ values CL (emitted hs) (list_of (one cl)).
Proof.
  intros hs te cl V. pose proof (emitted_values _ TE (v_ok _ _ _ V)) as X. pose proof (emitted_values _ CL (v_ok _ _ _ V)) as Y.
  rewrite (v_te _ _ _ V) in X. rewrite (v_cl _ _ _ V) in Y. auto.
Qed.
Lemma settled_framing : forall m te cl fr, settled m te cl fr -> 
  match fr with Empty => fields_framing (emitted (s_headers m)) UntilClose | _ => fields_framing (emitted (s_headers m)) fr end.
Proof.
  intros m te cl fr [[V _ _ _] F]. destruct (view_values _ _ _ V) as [X Y]. destruct fr as [| |n|].
  - destruct F as (_ & _ & _ & _ & _ & -> & ->). apply fr_close; assumption.
  - destruct F as (_ & _ & _ & _ & _ & H & _). destruct te as [t|]; [|congruence]. eapply fr_chunked; [exact X|apply (v_te_ok _ _ _ V); reflexivity].
  - destruct F as (_ & _ & _ & -> & (d & -> & <-) & _). destruct (v_cl_ok _ _ _ V d eq_refl). apply fr_length; assumption.
  - destruct F as (_ & _ & _ & _ & _ & -> & -> & _). apply fr_close; assumption.
Qed.
Lemma settled_sends : forall m te cl fr, settled m te cl fr -> s_pos m = 0 -> s_done m = false -> sends m fr.
Proof.
  intros m te cl fr [_ F] P D. split; [exact P|]. split; [exact D|]. destruct fr as [| |n|].
  - destruct F as (F1 & F2 & F3 & F4 & _). split; [exact F3|]. apply body_content. exact F4.
  - tauto.
  - destruct F as (F1 & F2 & F3 & F4 & _ & F6). auto.
  - tauto.
Qed.

(** a message that was started is sent, and what is sent is framed as its header fields say *)
Lemma begun_keep : forall protocol k hs b, s_keep (begun protocol (new_smsg k hs b)) = true -> forall v, protocol = Some v -> version_le v (1, 0) = false.
Proof. intros protocol k hs b K v ->. unfold begun in K. cbn [s_keep] in K. destruct (version_le v (1, 0)); [discriminate|reflexivity]. Qed.
Lemma request_sent : forall maxra bufsize protocol method sets b m, (0 < bufsize)%nat -> Forall setting_ok sets ->
  te_given (set_all sets) b -> cl_given (set_all sets) (request_right b) ->
  start_sending maxra protocol (new_smsg (SReq method) (set_all sets) b) = Ok m ->
  exists fs fr n w, send_header maxra m = Ok (m, concat (map field_text fs) ++ crlf) /\ Forall field_ok fs /\
    others_sent (set_all sets) fs /\ connection_sent (set_all sets) fs protocol fr /\ request_framing fs fr /\
    gives bufsize n m w /\ framed fr (body_bytes b) [] w.
Proof.
  intros maxra bufsize protocol method sets b m Hb Fs T C E. pose proof (set_all_ok _ Fs) as Ho. set (hs := set_all sets) in *.
  destruct (view_given hs b (request_right b) Ho T C) as (te & cl & V & T2 & C2).
  rewrite start_eq in E. set (m0 := begun protocol (new_smsg (SReq method) hs b)) in *.
  assert (Hc : content m0 = body_bytes b) by (apply (new_content (SReq method))).
  assert (Hh : s_headers m0 = hs) by (destruct b; reflexivity).
  assert (Iv : inv m0 te cl).
  { constructor.
    - rewrite Hh. exact V.
    - apply (new_blen (SReq method) hs b).
    - intros X. apply (new_has (SReq method) hs b). apply T2. exact X.
    - intros d X Y. rewrite Hc. specialize (C2 d X). destruct b; [exact C2|discriminate|exact C2]. }
  destruct (send_transferlength maxra m0) as [m1|] eqn:E1; [|discriminate]. cbn [rbind] in E. apply ok_inj in E. subst m.
  assert (Kd : s_kind m0 = SReq method) by (destruct b; reflexivity).
  unfold send_transferlength in E1. rewrite Kd in E1. destruct (request_settles _ _ _ _ _ _ Iv E1) as (K1 & te1 & cl1 & fr & Q).
  pose proof (ended_is m1) as Ed. set (m2 := ended m1) in *. destruct Q as (S & Nu & B1 & B2). pose proof (ended_settled _ _ _ _ _ Ed S) as S2.
  assert (Ho2 : hs_ok (s_headers m2)) by apply (v_ok _ _ _ (i_view _ _ _ (proj1 S2))).
  pose proof (settled_sends _ _ _ _ S2 (e_pos _ _ Ed) (e_done _ _ Ed)) as Sd.
  destruct (send_ok bufsize m2 fr Hb Sd) as (n & w & G & Fw).
  destruct (ended_content _ _ Ed) as [Ec _]. rewrite Ec, (k2_body _ _ K1), Hc in Fw.
  exists (emitted (s_headers m2)), fr, n, w. split.
  { unfold send_header. unfold send_transferlength. rewrite (e_kind _ _ Ed), (k2_kind _ _ K1), Kd.
    rewrite (request_again maxra method m2 te1 cl1 fr) by (split; [exact S2|auto]). cbn [rbind]. rewrite header_lines_eq. reflexivity. }
  split; [apply emitted_ok; exact Ho2|]. pose proof (k2_others _ _ K1) as Ko. rewrite Hh in Ko.
  split; [eapply others_ok; [exact Ed|exact Ho2|exact Ko]|].
  split.
  { eapply connection_ok; [exact Ed|exact Ho2|exact Ko| |congruence]. rewrite (k2_keep _ _ K1). apply begun_keep. }
  split; [|split; [exact G|exact Fw]]. pose proof (settled_framing _ _ _ _ S2) as Ff. destruct fr; [apply qf_none; exact Ff|apply qf_fields; [exact Ff|discriminate]|apply qf_fields; [exact Ff|discriminate]|congruence].
Qed.
Lemma ended_rsettled : forall bl rp sp m m' te cl fr, ended_ok m m' -> rsettled bl rp sp m te cl fr -> rsettled bl rp sp m' te cl fr.
Proof.
  intros bl rp sp m m' te cl fr E [V H]. split; [eapply ended_view; [exact E|exact V]|]. destruct (ended_content _ _ E) as [Ec Eb].
  rewrite ?(e_chunked _ _ E), ?(e_len _ _ E), ?(e_tbody _ _ E), ?Eb, ?Ec, ?(e_blen _ _ E).
  destruct H as [H|[H|[H|H]]]; [left; exact H|right; left|right; right; left|right; right; right].
  - destruct H as (H1 & H2 & H3 & H4 & H5 & H6 & H7 & H8 & H9 & H10). repeat (split; [assumption|]). destruct (s_keep m') eqn:K.
    + destruct (e_keep _ _ E K) as (_ & -> & _). exact H10.
    + rewrite (e_close _ _ E K). unfold set_header. change (b_lower (lit "Connection")) with (lit "connection").
      destruct (h_find (lit "connection") (s_headers m)) as [[? ?]|]; rewrite h_find_put_other by (vm_compute; discriminate); exact H10.
  - destruct H as (H1 & H2 & H3 & H4 & H5 & H6 & H7 & H8 & H9 & H10 & H11). repeat (split; [assumption|]). destruct (s_keep m') eqn:K; [|reflexivity].
    destruct (e_keep _ _ E K) as (K1 & _). congruence.
  - destruct H as (H1 & H2 & H3 & H4). split; [exact H1|]. split; [exact H2|]. split; [eapply ended_settled; [exact E|exact H3]|exact H4].
Qed.
Lemma rsettled_framing : forall st rm rp sp m te cl fr, rsettled (resp_bl st rm) rp sp m te cl fr ->
  response_framing st (str_eqb rm (lit "HEAD")) (emitted (s_headers m)) fr.
Proof.
  intros st rm rp sp m te cl fr [V H]. destruct (view_values _ _ _ V) as [X Y].
  destruct H as [H|H].
  - destruct H as (H1 & -> & _). apply rf_empty. apply bodyless_ok. exact H1.
  - assert (Nb : ~ has_no_body st (str_eqb rm (lit "HEAD"))).
    { rewrite <- bodyless_ok. fold (resp_bl st rm). destruct H as [H|[H|H]]; destruct H as (-> & _); discriminate. }
    apply rf_fields; [exact Nb|]. destruct H as [H|[H|H]].
    + destruct H as (_ & _ & _ & -> & _ & _ & _ & -> & -> & _). change 0 with (decimal (lit "0")).
      destruct (v_cl_ok _ _ _ V (lit "0") eq_refl). apply fr_length; assumption.
    + destruct H as (_ & _ & -> & -> & -> & _). apply fr_close; assumption.
    + destruct H as (_ & Hb & S & _). pose proof (settled_framing _ _ _ _ S) as Ff. destruct fr; try exact Ff.
      destruct S as [_ (_ & _ & _ & S & _)]. congruence.
Qed.
Lemma rsettled_sends : forall bl rp sp m te cl fr, rsettled bl rp sp m te cl fr -> s_pos m = 0 -> s_done m = false -> sends m fr.
Proof.
  intros bl rp sp m te cl fr [V H] P D. destruct H as [H|[H|[H|H]]].
  - destruct H as (_ & -> & H1 & H2 & H3 & H4 & _). split; [exact P|]. split; [exact D|]. auto.
  - destruct H as (_ & H0 & _ & -> & H1 & H2 & H3 & _). split; [exact P|]. split; [exact D|]. rewrite H1, H2, H3, H0, body_content by exact H0. auto.
  - destruct H as (_ & _ & -> & _ & _ & _ & H1 & H2 & H3 & H4 & _). split; [exact P|]. split; [exact D|]. auto.
  - destruct H as (_ & _ & S & _). eapply settled_sends; [exact S|exact P|exact D].
Qed.
Lemma rsettled_until : forall bl rp sp m te cl, rsettled bl rp sp m te cl UntilClose -> s_chunked m = false /\ s_len m = None.
Proof.
  intros bl rp sp m te cl [V H]. destruct H as [H|[H|[H|H]]].
  - destruct H as (_ & H & _). discriminate.
  - destruct H as (_ & _ & _ & H & _). discriminate.
  - tauto.
  - destruct H as (_ & _ & [_ S] & _). tauto.
Qed.
Lemma response_sent : forall maxra bufsize protocol st rm rp sp sets b m, (0 < bufsize)%nat -> Forall setting_ok sets ->
  te_given (set_all sets) b -> cl_given (set_all sets) (response_right b) ->
  start_sending maxra protocol (new_smsg (SResp st rm rp sp) (set_all sets) b) = Ok m ->
  exists fs fr n w, send_header maxra m = Ok (m, concat (map field_text fs) ++ crlf) /\ Forall field_ok fs /\
    others_sent (set_all sets) fs /\ connection_sent (set_all sets) fs protocol fr /\ response_framing st (str_eqb rm (lit "HEAD")) fs fr /\
    gives bufsize n m w /\ framed fr (body_bytes b) [] w.
Proof.
  intros maxra bufsize protocol st rm rp sp sets b m Hb Fs T C E. pose proof (set_all_ok _ Fs) as Ho. set (hs := set_all sets) in *.
  destruct (view_given hs b (response_right b) Ho T C) as (te & cl & V & T2 & C2).
  rewrite start_eq in E. set (k := SResp st rm rp sp) in *. set (m0 := begun protocol (new_smsg k hs b)) in *.
  assert (Hc : content m0 = body_bytes b) by (apply (new_content k)).
  assert (Hh : s_headers m0 = hs) by (destruct b; reflexivity).
  assert (Iv : rinv m0 te cl).
  { constructor.
    - rewrite Hh. exact V.
    - apply (new_blen k hs b).
    - intros X. apply (new_has k hs b). apply T2. exact X.
    - intros d X Y Z. rewrite Hc. specialize (C2 d X). destruct b; [discriminate|discriminate|exact C2]. }
  destruct (send_transferlength maxra m0) as [m1|] eqn:E1; [|discriminate]. cbn [rbind] in E. apply ok_inj in E. subst m.
  assert (Kd : s_kind m0 = k) by (destruct b; reflexivity).
  unfold send_transferlength in E1. rewrite Kd in E1. unfold k in E1. destruct (response_settles _ _ _ _ _ _ _ _ Iv E1) as (K1 & te1 & cl1 & fr & S).
  pose proof (ended_is m1) as Ed. set (m2 := ended m1) in *. pose proof (ended_rsettled _ _ _ _ _ _ _ _ Ed S) as S2.
  assert (Ho2 : hs_ok (s_headers m2)) by apply (v_ok _ _ _ (proj1 S2)).
  pose proof (rsettled_sends _ _ _ _ _ _ _ S2 (e_pos _ _ Ed) (e_done _ _ Ed)) as Sd.
  destruct (send_ok bufsize m2 fr Hb Sd) as (n & w & G & Fw).
  destruct (ended_content _ _ Ed) as [Ec _]. rewrite Ec, (k3_body _ _ K1), Hc in Fw.
  exists (emitted (s_headers m2)), fr, n, w. split.
  { unfold send_header. unfold send_transferlength. rewrite (e_kind _ _ Ed), (k3_kind _ _ K1), Kd. unfold k.
    rewrite (response_again st rm rp sp m2 te1 cl1 fr S2). cbn [rbind]. rewrite header_lines_eq. reflexivity. }
  split; [apply emitted_ok; exact Ho2|]. pose proof (k3_others _ _ K1) as Ko. rewrite Hh in Ko.
  split; [eapply others_ok; [exact Ed|exact Ho2|exact Ko]|].
  split.
  { eapply connection_ok; [exact Ed|exact Ho2|exact Ko| |].
    - intros X. apply (k3_keep _ _ K1) in X. eapply begun_keep. exact X.
    - intros ->. eapply rsettled_until. exact S. }
  split; [eapply rsettled_framing; exact S2|]. split; [exact G|exact Fw].
Qed.

(** ** From a server to a client *)
Lemma connection_options_sent : forall hs fs protocol fr opts, connection_sent hs fs protocol fr ->
  commas (list_of (get_header_list hs (lit "Connection"))) = commas opts -> Forall ascii_tok opts ->
  exists opts', connection_options fs opts' /\ (fr = UntilClose -> opts' = [lit "close"]).
Proof.
  intros hs fs protocol fr opts [V|(V & N & _)] E F.
  - exists [lit "close"]. split; [|reflexivity]. exists [lit "close"]. split; [exact V|]. split; [reflexivity|].
    constructor; [|constructor]. split; [apply lit_token; [discriminate|reflexivity]|]. repeat constructor; lia.
  - exists opts. split; [|congruence]. exists (list_of (get_header_list hs (lit "Connection"))). auto.
Qed.
Definition plain_given (hs : headers) : Prop :=
  get_header_list hs (lit "Content-Type") = None \/
  exists t st ps, ascii_tok t /\ ascii_tok st /\ Forall param_ok ps /\ lower t <> lit "multipart" /\
    get_header_list hs (lit "Content-Type") = Some [t ++ lit "/" ++ st ++ concat (map param_text ps)].
Definition options_given (hs : headers) : Prop :=
  exists opts, commas (list_of (get_header_list hs (lit "Connection"))) = commas opts /\ Forall ascii_tok opts.
Lemma plain_sent : forall hs fs, plain_given hs -> others_sent hs fs -> plain_type fs.
Proof.
  intros hs fs P O. specialize (O (lit "Content-Type")). 
  assert (V : values (lit "Content-Type") fs (list_of (get_header_list hs (lit "Content-Type")))) by (apply O; vm_compute; discriminate).
  destruct P as [P|(t & st & ps & H1 & H2 & H3 & H4 & P)]; rewrite P in V.
  - left. exact V.
  - right. exists t, st, ps. auto.
Qed.
Lemma status_line_eq : forall a b st reason fs opts, 0 <= a -> 0 <= b -> 0 <= st ->
  status_line (a, b) st reason ++ concat (map field_text fs) ++ crlf = head_text (mkH a b st reason fs opts).
Proof.
  intros a b st reason fs opts Ha Hb Hs. unfold status_line, head_text, message_text, status_text, version_to_bytes.
  cbn [h_major h_minor h_status h_reason h_fields fst snd]. rewrite !dec_str_nat by assumption. rewrite <- !app_assoc. rewrite app_nil_r. reflexivity.
Qed.
Lemma list_nonempty : forall hs name l, hs_ok hs -> get_header_list hs name = Some l -> l <> [].
Proof.
  intros hs name l [_ F] E. unfold get_header_list in E. destruct (h_find (b_lower name) hs) as [[n vs]|] eqn:Ef; [|discriminate]. inversion E; subst.
  apply (find_entry _ _ _ _ F Ef).
Qed.
Lemma received_others : forall hs fs name, hs_ok hs -> others_sent hs fs -> lower name <> lit "transfer-encoding" -> lower name <> lit "content-length" -> lower name <> lit "connection" ->
  get_header_list (fhs fs) name = get_header_list hs name.
Proof.
  intros hs fs name Ho O N1 N2 N3. pose proof (O name N1 N2 N3) as V. unfold fhs. rewrite (values_get_list _ _ _ V).
  destruct (get_header_list hs name) as [l|] eqn:E; [|reflexivity]. cbn [list_of]. pose proof (list_nonempty _ _ _ Ho E). destruct l; [congruence|reflexivity].
Qed.
Lemma round_trip : forall maxra bufsize protocol st reason rm rp sp a b sets bd m, (0 < bufsize)%nat -> Forall setting_ok sets ->
  te_given (set_all sets) bd -> cl_given (set_all sets) (response_right bd) -> plain_given (set_all sets) -> options_given (set_all sets) ->
  0 <= a -> 0 <= b -> 0 <= st -> ~ interim_status st -> reason_ok reason ->
  start_sending maxra protocol (new_smsg (SResp st rm rp sp) (set_all sets) bd) = Ok m ->
  exists text n w, send_header maxra m = Ok (m, text) /\ gives bufsize n m w /\
  forall ws packets, packets_ok packets -> concat packets = status_line (a, b) st reason ++ text ++ w ->
  exists c o, ends (client (str_eqb rm (lit "HEAD")) ws [] [] packets) o /\
    (o = Complete c /\ unread c = [] \/ o = Closed c /\ get_header_list (r_headers (c_msg c)) (lit "Connection") = Some [lit "close"]) /\
    r_status (c_msg c) = st /\ r_reason (c_msg c) = reason /\ r_proto (c_msg c) = Some (a, b) /\ r_out (c_msg c) = body_bytes bd /\
    (forall name, lower name <> lit "transfer-encoding" -> lower name <> lit "content-length" -> lower name <> lit "connection" ->
      get_header_list (r_headers (c_msg c)) name = get_header_list (set_all sets) name).
Proof.
  intros maxra bufsize protocol st reason rm rp sp a b sets bd m Hb Fs T C P (opts & O1 & O2) Ha Hb' Hs Ni Hr E. pose proof (set_all_ok _ Fs) as Ho.
  destruct (response_sent maxra bufsize protocol st rm rp sp sets bd m Hb Fs T C E) as (fs & fr & n & w & Sh & Ff & Os & Cs & Rf & G & Fw).
  exists (concat (map field_text fs) ++ crlf), n, w. split; [exact Sh|]. split; [exact G|]. intros ws packets Pk Ep.
  destruct (connection_options_sent _ _ _ _ _ Cs O1 O2) as (opts' & Co & Uc).
  set (h := mkH a b st reason fs opts').
  assert (Hh : head_ok h).
  { split; [exact Ha|]. split; [exact Hb'|]. split; [exact Hs|]. split; [exact Hr|]. split; [exact Ff|]. split; [exact Co|]. eapply plain_sent; [exact P|exact Os]. }
  assert (Eb : concat packets = response_bytes 0 [] h w).
  { rewrite Ep. unfold response_bytes. cbn [repeat concat map app]. unfold h. rewrite <- (status_line_eq a b st reason fs opts') by assumption. rewrite <- !app_assoc. reflexivity. }
  assert (Np : packets <> []).
  { intros ->. cbn [concat] in Eb. unfold response_bytes in Eb. cbn [repeat concat map app] in Eb. symmetry in Eb. apply app_eq_nil in Eb as [Eb _]. discriminate. }
  assert (X : fr <> UntilClose -> exists c o, ends (client (str_eqb rm (lit "HEAD")) ws [] [] packets) o /\
    (o = Complete c /\ unread c = [] \/ o = Closed c /\ get_header_list (r_headers (c_msg c)) (lit "Connection") = Some [lit "close"]) /\
    r_status (c_msg c) = st /\ r_reason (c_msg c) = reason /\ r_proto (c_msg c) = Some (a, b) /\ r_out (c_msg c) = body_bytes bd /\
    r_headers (c_msg c) = fhs fs).
  { intros Nu. destruct (response_done (str_eqb rm (lit "HEAD")) 0 [] h fr (body_bytes bd) [] w [] ws [] [] packets) as (c & En & Un & _ & _ & R1 & R2 & R3 & R4 & R5 & _); try assumption.
    - constructor.
    - intros _. constructor.
    - constructor.
    - rewrite app_nil_r. exact Eb.
    - exists c, (Complete c). split; [exact En|]. split; [left; auto|]. rewrite app_nil_r in R5. cbn [h h_status h_reason h_major h_minor h_fields] in *. auto. }
  assert (Y : exists c o, ends (client (str_eqb rm (lit "HEAD")) ws [] [] packets) o /\
    (o = Complete c /\ unread c = [] \/ o = Closed c /\ get_header_list (r_headers (c_msg c)) (lit "Connection") = Some [lit "close"]) /\
    r_status (c_msg c) = st /\ r_reason (c_msg c) = reason /\ r_proto (c_msg c) = Some (a, b) /\ r_out (c_msg c) = body_bytes bd /\
    r_headers (c_msg c) = fhs fs).
  { destruct fr; try (apply X; discriminate). destruct Fw as [_ ->].
    destruct (response_close (str_eqb rm (lit "HEAD")) 0 [] h (body_bytes bd) ws [] [] packets) as (c & En & R1 & R2 & R3 & R4 & R5); try assumption.
    - constructor.
    - constructor.
    - exists c, (Closed c). split; [exact En|]. split; [|cbn [h h_status h_reason h_major h_minor h_fields] in *; auto].
      right. split; [reflexivity|]. rewrite R5. cbn [h h_fields]. destruct Cs as [Cs|(_ & Cs & _)]; [|congruence]. unfold fhs. rewrite (values_get_list _ _ _ Cs). reflexivity. }
  destruct Y as (c & o & Y1 & Y2 & Y3 & Y4 & Y5 & Y6 & Y7). exists c, o. repeat (split; [assumption|]). intros name N1 N2 N3. rewrite Y7. apply received_others; assumption.
Qed.
