(** Proofs for C72-C78: the responses a client receives. *)
From Verif Require Import Py Num UriModel UriRel HttpModel HttpSpec HttpProofs HttpLex HttpParamModel HttpParamSpec
  HttpProps HttpParamProofs HttpParamMain MsgModel MsgSpec MsgLex MsgHead MsgRecv MsgData MsgStart MsgWhole MsgEnds.

Lemma ready_new : forall hd ws fl, ready hd (new_msg (KResp hd) ws fl).
Proof. intros. constructor; reflexivity. Qed.
Lemma not_interim : forall st, ~ interim_status st -> interim st = false.
Proof. intros st H. apply not_true_iff_false. rewrite interim_ok. exact H. Qed.
Lemma all_persistent : forall (bs : list head) h b1 b2, (b1 = true <-> Forall head_persistent bs) -> (b2 = true <-> head_persistent h) ->
  (b1 && b2 = true <-> Forall head_persistent (bs ++ [h])).
Proof.
  intros bs h b1 b2 H1 H2. rewrite andb_true_iff, H1, H2, Forall_app. split; intros [A B]; (split; [exact A|]); [constructor; [exact B|constructor]|inversion B; assumption].
Qed.

Lemma response_done : forall hd blank before h fr body trailer wire rest ws fl buf packets,
  before_ok before -> head_ok h -> ~ interim_status (h_status h) ->
  response_framing (h_status h) hd (h_fields h) fr -> framed fr body trailer wire -> fr <> UntilClose ->
  (fr = Chunked -> Forall (eq false) fl) ->
  wf buf -> wf packets -> packets <> [] -> concat buf ++ concat packets = response_bytes blank before h wire ++ rest ->
  exists c, ends (client hd ws fl buf packets) (Complete c) /\ unread c = rest /\ wf (c_buf c) /\ wf (c_in c) /\
    r_status (c_msg c) = h_status h /\ r_reason (c_msg c) = h_reason h /\ r_proto (c_msg c) = Some (h_major h, h_minor h) /\
    r_out (c_msg c) = body /\ r_headers (c_msg c) = fhs (h_fields h ++ trailer) /\
    (r_keep (c_msg c) = true <-> Forall head_persistent (before ++ [h])).
Proof.
  intros hd blank before h fr body trailer wire rest ws fl buf packets Bo Ho Ni Rf Fr Nu Fl Wb Wi Np E.
  set (m0 := new_msg (KResp hd) ws fl).
  assert (X : forall buf' inn', wf buf' -> wf inn' -> bytes_of buf' inn' = bytes_of buf packets ->
    exists c, steps (mkC m0 buf' inn' false) c /\ r_mode (c_msg c) = None /\ c_recv c = false /\ unread c = rest /\ wf (c_buf c) /\ wf (c_in c) /\
    r_status (c_msg c) = h_status h /\ r_reason (c_msg c) = h_reason h /\ r_proto (c_msg c) = Some (h_major h, h_minor h) /\
    r_out (c_msg c) = body /\ r_headers (c_msg c) = fhs (h_fields h ++ trailer) /\
    (r_keep (c_msg c) = true <-> Forall head_persistent (before ++ [h]))).
  { intros buf' inn' W1 W2 Eq. unfold bytes_of at 2 in Eq. rewrite E in Eq. unfold response_bytes in Eq. rewrite <- !app_assoc in Eq.
    destruct (blank_phase hd blank m0 buf' inn' _ (ready_new hd ws fl) W2 W1 Eq) as (b1 & i1 & V1 & V2 & E1 & S1).
    destruct (interim_phase hd before m0 b1 i1 _ (ready_new hd ws fl) Bo V1 V2 E1) as (k & m2 & b2 & i2 & Hk & V3 & V4 & E2 & R2 & K2 & O2 & Ws2 & Fl2 & S2).
    destruct (one_response hd m2 h fr body trailer wire b2 i2 rest R2 Ho Rf (not_interim _ Ni) Fr Nu) as (k' & m3 & b3 & i3 & Hk' & V5 & V6 & E3 & Rc & S3); try assumption.
    { intros Hc. rewrite Fl2. apply Fl. exact Hc. }
    exists (mkC m3 b3 i3 false). destruct Rc as [C1 C2 C3 C4 C5 C6 C7 C8].
    split; [eapply steps_trans; [exact S1|]; eapply steps_trans; [exact S2|exact S3]|]. cbn [c_msg c_recv c_buf c_in].
    split; [exact C1|]. split; [reflexivity|]. split; [exact E3|]. split; [exact V6|]. split; [exact V5|]. split; [exact C2|]. split; [exact C3|]. split; [exact C4|].
    split; [rewrite C6, O2; reflexivity|]. split; [exact C5|]. rewrite C7, K2. cbn [m0 new_msg r_keep andb]. apply all_persistent; assumption. }
  destruct packets as [|p packets]; [congruence|]. inversion Wi; subst.
  destruct (X (buf ++ [p]) packets) as (c & S & M & Rv & U & W1 & W2 & Y).
  { apply wf_app; [exact Wb|constructor; [assumption|constructor]]. }
  { assumption. }
  { unfold bytes_of. rewrite concat_app. cbn [concat]. rewrite app_nil_r, <- app_assoc. reflexivity. }
  exists c. split; [|repeat (split; [assumption|]); exact Y].
  eapply en_next; [reflexivity|]. eapply ends_steps; [exact S|]. destruct c as [m b i rv]. cbn [c_recv] in Rv. subst rv. apply complete_ends. exact M.
Qed.

(** a response that is cut short *)
Lemma response_cut : forall hd blank before h fr body trailer wire ws fl buf packets missing,
  before_ok before -> head_ok h -> ~ interim_status (h_status h) ->
  response_framing (h_status h) hd (h_fields h) fr -> framed fr body trailer wire -> fr <> UntilClose ->
  (fr = Chunked -> Forall (eq false) fl) ->
  wf buf -> wf packets -> missing <> [] -> (concat buf ++ concat packets) ++ missing = response_bytes blank before h wire ->
  exists c, ends (client hd ws fl buf packets) (Closed c) /\ exists t, body = r_out (c_msg c) ++ t.
Proof.
  intros hd blank before h fr body trailer wire ws fl buf packets missing Bo Ho Ni Rf Fr Nu Fl Wb Wi Nm E.
  destruct (response_done hd blank before h fr body trailer wire [] ws fl buf (packets ++ [missing])) as (c & En & U & _ & _ & _ & _ & _ & O & _); try assumption.
  { apply wf_app; [exact Wi|constructor; [exact Nm|constructor]]. }
  { destruct packets; discriminate. }
  { rewrite app_nil_r, <- E, concat_app. cbn [concat]. rewrite app_nil_r, app_assoc. reflexivity. }
  change (client hd ws fl buf (packets ++ [missing])) with (ext missing (client hd ws fl buf packets)) in En.
  destruct (ends_ext missing _ _ En _ eq_refl) as [(c' & X1 & X2 & X3 & X4)|(o' & X1 & X2)].
  - exists c'. split; [exact X1|]. pose proof (ends_through _ _ X4 _ En) as Z. destruct (ends_out _ _ Z c eq_refl) as (t & Z2). exists t. rewrite <- O. exact Z2.
  - exfalso. destruct o'; try discriminate. inversion X2; subst. unfold unread, ext in U. cbn [c_buf c_in] in U. rewrite concat_app in U. cbn [concat] in U.
    apply app_eq_nil in U as [_ U]. apply app_eq_nil in U as [_ U]. rewrite app_nil_r in U. congruence.
Qed.

(** a response that ends when the connection does *)
Lemma response_close : forall hd blank before h body ws fl buf packets,
  before_ok before -> head_ok h -> response_framing (h_status h) hd (h_fields h) UntilClose ->
  wf buf -> wf packets -> packets <> [] -> concat buf ++ concat packets = response_bytes blank before h body ->
  exists c, ends (client hd ws fl buf packets) (Closed c) /\ 
    r_status (c_msg c) = h_status h /\ r_reason (c_msg c) = h_reason h /\ r_proto (c_msg c) = Some (h_major h, h_minor h) /\
    r_out (c_msg c) = body /\ r_headers (c_msg c) = fhs (h_fields h).
Proof.
  intros hd blank before h body ws fl buf packets Bo Ho Rf Wb Wi Np E.
  set (m0 := new_msg (KResp hd) ws fl).
  destruct packets as [|p packets]; [congruence|]. inversion Wi; subst.
  assert (Eq : bytes_of (buf ++ [p]) packets = response_bytes blank before h body).
  { rewrite <- E. unfold bytes_of. rewrite concat_app. cbn [concat]. rewrite app_nil_r, <- app_assoc. reflexivity. }
  assert (W0 : wf (buf ++ [p])) by (apply wf_app; [exact Wb|constructor; [assumption|constructor]]).
  unfold response_bytes in Eq.
  destruct (blank_phase hd blank m0 (buf ++ [p]) packets _ (ready_new hd ws fl) ltac:(assumption) W0 Eq) as (b1 & i1 & V1 & V2 & E1 & S1).
  destruct (interim_phase hd before m0 b1 i1 _ (ready_new hd ws fl) Bo V1 V2 E1) as (k & m2 & b2 & i2 & Hk & V3 & V4 & E2 & R2 & K2 & O2 & Ws2 & Fl2 & S2).
  destruct (head_phase hd m2 h UntilClose b2 i2 body R2 Ho Rf V3 V4 E2) as (k' & b3 & i3 & Hk' & V5 & V6 & E3 & S3).
  set (m3 := heads_done m2 h UntilClose (r_keep m2 && k')) in *. change (finished m3) with m3 in S3.
  destruct (close_phase (2 * length b3 + 4 * length i3 + length (r_ws m2) + 0)%nat m3) with (mode := DATA) (pos := 0) (buf := @nil Z) (out := r_out m2) (ws := r_ws m2) (fl := r_fl m2) (bufs := b3) (inn := i3)
    as (pos' & ws' & S4 & C4); try assumption; try reflexivity.
  { left. split; reflexivity. }
  eexists. split.
  - eapply en_next; [reflexivity|]. eapply ends_steps; [|apply en_last; [exact C4|discriminate]].
    eapply steps_trans; [exact S1|]. eapply steps_trans; [exact S2|]. eapply steps_trans; [exact S3|exact S4].
  - cbn [c_msg upd r_status r_reason r_proto r_out r_headers m3 heads_done]. rewrite O2. cbn [m0 new_msg r_out app]. rewrite E3. auto.
Qed.
