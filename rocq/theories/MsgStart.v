(** Proofs for C72-C78: the status line, and what the header fields say. *)
From Verif Require Import Py Num UriModel UriRel HttpModel HttpSpec HttpProofs HttpLex HttpParamModel HttpParamSpec
  HttpProps HttpParamProofs HttpParamMain MsgModel MsgSpec MsgLex MsgHead MsgRecv MsgData.

(** ** the reason *)
Lemma tok_span : forall s, exists t r, s = t ++ r /\ Forall tok t /\ stop_tok r.
Proof.
  induction s as [|c s (t & r & E & F & H)]; [exists [], []; repeat constructor|].
  destruct (is_tokchar c) eqn:T.
  - exists (c :: t), r. split; [cbn; rewrite E at 1; reflexivity|]. split; [constructor; [apply is_tok_tok; exact T|exact F]|exact H].
  - exists [], (c :: s). split; [reflexivity|]. split; [constructor|]. cbn. intros X. apply is_tok_tok in X. congruence.
Qed.
Lemma reason_tail : forall c s, (forall a b, c :: s <> a ++ [32; 32] ++ b) -> forall a b, s <> a ++ [32; 32] ++ b.
Proof. intros c s H a b E. apply (H (c :: a) b). rewrite E. reflexivity. Qed.
Lemma reason_tails : forall t s, (forall a b, t ++ s <> a ++ [32; 32] ++ b) -> forall a b, s <> a ++ [32; 32] ++ b.
Proof. intros t s H a b E. apply (H (t ++ a) b). rewrite E, <- app_assoc. reflexivity. Qed.
Lemma reason_lws : forall s, Forall reason_char s -> (forall b, s <> 32 :: b) -> no_lws s.
Proof.
  intros [|c s] F H; [apply parse_lws_none; reflexivity|]. inversion F as [|? ? R F']; subst. destruct R as [T|(S1 & N1 & N2 & N3)].
  - destruct (tok_head c T). apply no_lws_head; assumption.
  - apply no_lws_head.
    + intros [X|X]; [apply (H s); congruence|congruence].
    + intros ->. apply is_sep_sep in S1. discriminate.
Qed.
Lemma lex_reason : forall n s, (length s <= n)%nat -> Forall reason_char s -> (forall a b, s <> a ++ [32; 32] ++ b) ->
  exists l, lexed ending true s l /\ concat (map word_bytes l) = s.
Proof.
  induction n as [|n IH]; intros s L F H.
  - destruct s; [|cbn in L; lia]. exists []. split; [apply lex_end|reflexivity].
  - destruct s as [|c s]; [exists []; split; [apply lex_end|reflexivity]|]. cbn in L. inversion F as [|? ? R F']; subst.
    destruct (is_tokchar c) eqn:Tc.
    + destruct (tok_span (c :: s)) as (t & r & E & Ft & Sr). destruct t as [|c' t].
      { cbn in E. subst r. cbn in Sr. apply is_tok_tok in Tc. contradiction. }
      assert (Lr : (length r <= n)%nat) by (apply (f_equal (@length Z)) in E; rewrite app_length in E; cbn in E; lia).
      assert (Fr : Forall reason_char r) by (rewrite E in F; apply Forall_app in F as [_ F]; exact F).
      assert (Hr : forall a b, r <> a ++ [32; 32] ++ b) by (apply (reason_tails (c' :: t)); rewrite <- E; exact H).
      destruct (IH r Lr Fr Hr) as (l & X1 & X2). exists (WStr (c' :: t) :: l). rewrite E. split.
      * apply lex_tok; [split; [discriminate|exact Ft]|exact Sr|exact X1].
      * cbn [map concat word_bytes]. rewrite X2. reflexivity.
    + destruct (IH s) as (l & X1 & X2); [lia|assumption|eapply reason_tail; exact H|].
      destruct R as [T|(S1 & N1 & N2 & N3)]; [apply is_tok_tok in T; congruence|].
      destruct (Z.eq_dec c 32) as [->|N4].
      * exists (WByte 32 :: l). split; [|cbn [map concat word_bytes]; rewrite X2; reflexivity].
        apply (lex_sp ending true); [|exact X1]. apply reason_lws; [assumption|]. intros b ->. apply (H [] b). reflexivity.
      * exists (WByte c :: l). split; [|cbn [map concat word_bytes]; rewrite X2; reflexivity].
        apply lx_sep; [exact S1| |exact N3|exact N2|exact X1]. intros [X|X]; congruence.
Qed.
Lemma version_words : forall a b l, 0 <= a -> 0 <= b ->
  require_http_version (WStr (lit "HTTP") :: WByte 47 :: WStr (dec_nat a ++ 46 :: dec_nat b) :: l) = Ok ((a, b), l) /\
  token (dec_nat a ++ 46 :: dec_nat b).
Proof.
  intros a b l Ha Hb. destruct (dec_nat_spec a Ha) as (A1 & A2 & A3 & _). destruct (dec_nat_spec b Hb) as (B1 & B2 & B3 & _).
  set (t := dec_nat a ++ 46 :: dec_nat b).
  assert (T : token t).
  { split; [unfold t; destruct (dec_nat a); discriminate|]. apply Forall_app. split; [|constructor].
    - eapply Forall_impl; [|exact A1]. intros c Hc. apply (digit_tok c Hc).
    - apply is_tok_tok. reflexivity.
    - eapply Forall_impl; [|exact B1]. intros c Hc. apply (digit_tok c Hc). }
  split; [|exact T]. unfold require_http_version.
  rewrite parse_sp_str, require_token_ok by (apply lit_token; [discriminate|reflexivity]). cbn [rbind].
  change (str_eqb (b_upper (lit "HTTP")) (lit "HTTP")) with true. cbn [negb].
  change (require_separator 47 (parse_sp (WByte 47 :: ?x))) with (Ok x). cbn [rbind].
  rewrite parse_sp_str, (require_token_ok t _ T). cbn [rbind].
  assert (NA : ~ In 46 (dec_nat a)). { intros X. rewrite Forall_forall in A1. apply A1 in X. destruct X. lia. }
  assert (NB : ~ In 46 (dec_nat b)). { intros X. rewrite Forall_forall in B1. apply B1 in X. destruct X. lia. }
  unfold t. rewrite split_app, split_no by assumption. rewrite !is_digits_ok by assumption. cbn [andb rbind].
  rewrite A2, B2. reflexivity.
Qed.
Lemma status_ok : forall h m, head_ok h ->
  response_start m (line (status_text h)) =
  Ok (set_start m (r_method m) (r_uri m) (h_status h) (h_reason h) (Some (h_major h, h_minor h))).
Proof.
  intros h m (Ha & Hb & Hs & (R1 & R2 & R3) & _). unfold response_start. rewrite drop_last_line.
  destruct (dec_nat_spec (h_status h) Hs) as (D1 & D2 & D3 & _).
  destruct (lex_reason (length (h_reason h)) (h_reason h) (le_n _) R1 R2) as (l & L1 & L2).
  set (t := dec_nat (h_major h) ++ 46 :: dec_nat (h_minor h)).
  destruct (version_words (h_major h) (h_minor h) (WByte 32 :: WStr (dec_nat (h_status h)) :: WByte 32 :: l) Ha Hb) as (V & T). fold t in V, T.
  assert (W : words_of (status_text h) false = Ok (WStr (lit "HTTP") :: WByte 47 :: WStr t :: WByte 32 :: WStr (dec_nat (h_status h)) :: WByte 32 :: l)).
  { apply words_ok. cbn [negb]. unfold status_text.
    replace (lit "HTTP/" ++ dec_nat (h_major h) ++ lit "." ++ dec_nat (h_minor h) ++ lit " " ++ dec_nat (h_status h) ++ lit " " ++ h_reason h)
      with (lit "HTTP" ++ 47 :: t ++ 32 :: dec_nat (h_status h) ++ 32 :: h_reason h)
      by (unfold t; rewrite <- !app_assoc; reflexivity).
    apply lex_tok; [apply lit_token; [discriminate|reflexivity]|exact (stop_sep 47 nil eq_refl)|].
    apply lex_sep; [reflexivity|reflexivity|]. apply lex_tok; [exact T|exact (stop_sep 32 nil eq_refl)|].
    assert (TS : token (dec_nat (h_status h))) by (apply (digits_token _ D3 D1)).
    apply (lex_sp ending true); [apply token_no_lws; exact TS|]. apply lex_tok; [exact TS|exact (stop_sep 32 nil eq_refl)|].
    apply (lex_sp ending true); [apply reason_lws; assumption|exact L1]. }
  rewrite W. cbn [rbind]. rewrite V. cbv iota beta.
  change (parse_sp (WByte 32 :: ?x)) with x. unfold parse_integer. rewrite is_digits_ok by assumption. cbn [rbind].
  change (parse_sp (WByte 32 :: ?x)) with x. rewrite D2, L2. reflexivity.
Qed.
Lemma reason_13 : forall r, Forall reason_char r -> ~ In 13 r.
Proof.
  intros r F X. rewrite Forall_forall in F. apply F in X. destruct X as [[X _]|[X _]]; [apply X; left; lia|].
  apply is_sep_sep in X. discriminate.
Qed.
Lemma status_no_crlf : forall h, head_ok h -> no_crlf (status_text h) /\ status_text h <> [].
Proof.
  intros h (Ha & Hb & Hs & (R1 & R2 & R3) & _). split; [|discriminate].
  apply not_in_no_crlf. unfold status_text. rewrite !in_app_iff.
  assert (D : forall n, 0 <= n -> ~ In 13 (dec_nat n)).
  { intros n Hn X. destruct (dec_nat_spec n Hn) as (D1 & _). rewrite Forall_forall in D1. apply D1 in X. destruct X. lia. }
  intros [X|[X|[X|[X|[X|[X|[X|X]]]]]]]; try (vm_compute in X; repeat destruct X as [X|X]; discriminate || contradiction);
    try (eapply D; [|exact X]; assumption). exact (reason_13 _ R1 X).
Qed.

(** ** what the fields say *)
Definition fhs (fs : list field) : headers := add_fields [] fs.
Lemma conn_opts : forall fs opts, connection_options fs opts -> exists l, get_connection (fhs fs) = Ok l /\
  (existsb (str_eqb (lit "close")) l = true <-> In (lit "close") (map lower opts)).
Proof.
  intros fs opts (vs & V & C & F). unfold get_connection, fhs. rewrite (values_get _ _ _ V).
  destruct (tokens_ok opts F) as (w & W1 & W2).
  assert (Z : opts <> [] -> exists l, get_connection (fhs fs) = Ok l /\ l = map lower opts).
  { intros Hn. unfold get_connection, fhs. rewrite (values_get _ _ _ V).
    assert (Cn : commas vs <> []).
    { rewrite C. destruct opts as [|o opts]; [congruence|]. inversion F as [|? ? [[Tn _] _] _]; subst. destruct opts; [exact Tn|]. rewrite commas_cons. destruct o; [congruence|discriminate]. }
    destruct vs as [|v vs]; [exfalso; apply Cn; reflexivity|]. destruct (commas (v :: vs)) eqn:E; [congruence|]. rewrite C, W1. cbn [rbind]. rewrite W2. cbn [rbind].
    eexists. split; [reflexivity|]. reflexivity. }
  destruct opts as [|o opts].
  - exists []. split; [|cbn; split; [discriminate|tauto]]. destruct vs as [|v vs]; [reflexivity|]. rewrite C. reflexivity.
  - destruct Z as (l & Z1 & ->); [discriminate|]. unfold get_connection, fhs in Z1. rewrite (values_get _ _ _ V) in Z1. exists (map lower (o :: opts)).
    split; [exact Z1|]. apply keys_in.
Qed.
Lemma plain_ok : forall fs, plain_type fs -> exists o, get_content_type (fhs fs) = Ok o /\
  forall t, o = Some t -> mt_type t <> lit "multipart" /\ is_byteranges t = false.
Proof.
  intros fs [V|(t & st & ps & A1 & A2 & F & N & V)]; unfold get_content_type, fhs; rewrite (values_get _ _ _ V).
  - exists None. split; [reflexivity|discriminate].
  - cbn [commas]. destruct (media_ok t st ps A1 A2 F) as (d & ->). cbn [rbind]. eexists. split; [reflexivity|]. intros t' E. inversion E; subst.
    cbn [mt_type]. split; [exact N|]. unfold is_byteranges. cbn [mt_type mt_subtype].
    apply andb_false_iff. left. apply str_eqb_neq. intros X. apply N. rewrite <- X, <- lower_eq. destruct A1 as [_ A1].
    rewrite u_b_lower by exact A1. symmetry. apply u_lower_A. exact A1.
Qed.
