(** C37 and C38: HTTP quoted strings and the HTTP word tokenizer. *)
From Verif Require Import Py HttpModel HttpSpec HttpProofs HttpLex.

(** ** C37: quoted strings round-trip *)

(** decode_quoted_string(quote_string(s)) == s *)
Theorem c37_decode : forall s, bytes s -> decode_quoted_string (quote_string s true) = s.
Proof. intros s B. destruct (quote_forced s B) as (q & _ & _ & H). exact H. Qed.

(** quote_string(s) is a quoted-string of the grammar, which the octet parser reads, leaving what is
    after it, and the word parser reads as its only word; the decoded value is s *)
Theorem c37_parse : forall s, bytes s ->
  quoted (quote_string s true) (quote_string s true)
  /\ (forall r, parse_quoted_string true (quote_string s true ++ r) = Ok (Some (quote_string s true), r))
  /\ (forall ignore_sp, words_of (quote_string s true) ignore_sp = Ok [WStr (quote_string s true)]).
Proof.
  intros s B. destruct (quote_forced s B) as (q & E & Hq & _).
  assert (Q : quoted (quote_string s true) (quote_string s true)) by (exists q, q; auto).
  split; [exact Q|]. split; [intros r; apply parse_quoted_ok; exact Q|].
  intros ig. unfold words_of. apply (words_complete (fun s l => s = nil /\ l = nil)); [|rewrite <- (app_nil_r (quote_string s true)) at 1|lia].
  - intros s0 l [-> ->] n _. destruct n; reflexivity.
  - apply lx_quoted; [exact Q|]. constructor. auto.
Qed.

(** With force=False the quotes are left out exactly when there is nothing in s but bytes that may be
    in a token (or a byte from 128 on, see c37_unforced_refuted) *)
Theorem c37_unforced : forall s, bytes s ->
  (Forall tok s -> quote_string s false = s) /\ (~ Forall tok s -> quote_string s false = quote_string s true).
Proof.
  intros s B. destruct (quote_unforced s B) as [[H E]|[H E]]; split; auto; intros X; contradiction.
Qed.
(** ... and the single word read back, a token or a quoted string, has value s unless s is empty *)
Definition word_value (w : word) (s : str) : Prop :=
  (token s /\ w = WStr s) \/ (exists q, quoted q q /\ w = WStr q /\ decode_quoted_string q = s).
Theorem c37_unforced_parse : forall s ignore_sp, bytes s -> s <> nil ->
  exists w, words_of (quote_string s false) ignore_sp = Ok [w] /\ word_value w s.
Proof.
  intros s ig B Hn. destruct (quote_unforced s B) as [[H E]|[H E]]; rewrite E.
  - exists (WStr s). assert (T : token s) by (split; assumption). split; [|left; auto].
    unfold words_of. apply (words_complete (fun s l => s = nil /\ l = nil)); [|rewrite <- (app_nil_r s) at 1|lia].
    + intros s0 l [-> ->] n _. destruct n; reflexivity.
    + apply lx_token; [exact T|exact I|]. constructor. auto.
  - exists (WStr (quote_string s true)). destruct (c37_parse s B) as (H1 & _ & H3). split; [apply H3|].
    right. exists (quote_string s true). split; [assumption|]. split; [reflexivity|]. apply c37_decode. assumption.
Qed.

Lemma tok_dec_none : forall s, existsb special s = true -> ~ Forall tok s.
Proof. intros s H F. apply special_tok in F. congruence. Qed.

(** REFUTED: quoting is omitted only for valid tokens.  The empty string is not a token, and is read
    back as no word at all; a byte from 128 on may not be in a token (check_token says so), and is
    not quoted *)
Theorem c37_unforced_refuted :
  (quote_string nil false = nil /\ words_of nil true = Ok nil)
  /\ (quote_string [233] false = [233] /\ check_token [233] = Err ValueError).
Proof. repeat split. Qed.

Example c37_ex1 : quote_string (lit "a""b") true = lit """a\""b""".
Proof. reflexivity. Qed.
Example c37_ex2 : bytes (lit "two words") /\ lit "two words" <> nil /\ quote_string (lit "two words") false = lit """two words"""
  /\ decode_quoted_string (lit """two words""") = lit "two words".
Proof. split; [repeat constructor; lia|]. split; [discriminate|]. split; reflexivity. Qed.
Example c37_ex3 : Forall tok (lit "token") /\ quote_string (lit "token") false = lit "token".
Proof. split; [|reflexivity]. apply special_tok. reflexivity. Qed.
Example c37_ex4 : quote_string [13; 10; 9; 200] false = [34; 92; 13; 92; 10; 9; 200; 34].
Proof. reflexivity. Qed.

(** ** C38: the words of a source *)

(** The word parser accepts exactly the sources that are a sequence of separators, tokens, balanced
    comments, quoted strings and white space, or such a sequence and a quoted string without its
    last quote; and the words are those of the sequence *)
Theorem c38_words : forall s ignore_sp l, bytes s ->
  words_of s ignore_sp = Ok l <-> source_of (negb ignore_sp) s l \/ open_source_of (negb ignore_sp) s l.
Proof.
  intros s ig l B. unfold words_of. split.
  - apply words_sound; [lia|assumption].
  - intros [H|H].
    + eapply words_complete; [|exact H|lia]. intros s0 l0 [-> ->] n _. destruct n; reflexivity.
    + eapply words_complete; [|exact H|lia]. intros s0 l0 (b & u & Hb & -> & ->) n Hn.
      destruct n as [|n]; [cbn in Hn; lia|].
      rewrite (words_step n ig _ (WStr (34 :: u)) nil); [destruct n; reflexivity| |apply word1_open; assumption].
      apply no_lws_head; [intros [?|?]; lia|lia].
Qed.

(** ... and every other source raises ParserError *)
Theorem c38_error : forall s ignore_sp e, words_of s ignore_sp = Err e -> e = ParserError.
Proof. intros s ig e. apply words_err. Qed.

(** The words: a separator, or SP only if spaces are kept, a token, a comment or a quoted string
    (the last word may be a quoted string that is not closed) *)
Definition word_ok (sp : bool) (w : word) : Prop :=
  (exists c, w = WByte c /\ ((separator c /\ ~ ws c /\ c <> 40 /\ c <> 34) \/ (sp = true /\ c = 32)))
  \/ (exists t, w = WStr t /\ (token t \/ (exists raw, quoted raw t) \/ (exists raw, comment raw t))).
Definition open_word (w : word) : Prop := exists b u, qbody b u /\ w = WStr (34 :: u).
Lemma lexed_words : forall tail sp s l, lexed tail sp s l ->
  exists l1 s2 l2, l = l1 ++ l2 /\ Forall (word_ok sp) l1 /\ tail s2 l2.
Proof.
  intros tail sp s l H. induction H as [s l H|a s l Ha Hs H (l1 & s2 & l2 & -> & F & T)|c s l H1 H2 H3 H4 H (l1 & s2 & l2 & -> & F & T)|t s l Ht Hs H (l1 & s2 & l2 & -> & F & T)|raw u s l Hq H (l1 & s2 & l2 & -> & F & T)|raw u s l Hq H (l1 & s2 & l2 & -> & F & T)].
  - exists nil, s, l. auto.
  - exists ((if sp then [WByte 32] else nil) ++ l1), s2, l2. split; [apply app_assoc|]. split; [|exact T].
    destruct sp; [|exact F]. constructor; [|exact F]. left. exists 32. auto.
  - exists (WByte c :: l1), s2, l2. split; [reflexivity|]. split; [|exact T]. constructor; [|exact F]. left. exists c. split; [reflexivity|]. left. auto.
  - exists (WStr t :: l1), s2, l2. split; [reflexivity|]. split; [|exact T]. constructor; [|exact F]. right. exists t. auto.
  - exists (WStr u :: l1), s2, l2. split; [reflexivity|]. split; [|exact T]. constructor; [|exact F]. right. exists u. split; [reflexivity|]. right. left. exists raw. exact Hq.
  - exists (WStr u :: l1), s2, l2. split; [reflexivity|]. split; [|exact T]. constructor; [|exact F]. right. exists u. split; [reflexivity|]. right. right. exists raw. exact Hq.
Qed.
Theorem c38_word_ok : forall s ignore_sp l, bytes s -> words_of s ignore_sp = Ok l ->
  Forall (word_ok (negb ignore_sp)) l
  \/ (exists l1 w, l = l1 ++ [w] /\ Forall (word_ok (negb ignore_sp)) l1 /\ open_word w).
Proof.
  intros s ig l B H. apply c38_words in H; [|assumption]. destruct H as [H|H]; apply lexed_words in H as (l1 & s2 & l2 & -> & F & T).
  - destruct T as [_ ->]. rewrite app_nil_r. left. exact F.
  - destruct T as (b & u & Hb & _ & ->). right. exists l1, (WStr (34 :: u)). split; [reflexivity|]. split; [exact F|]. exists b, u. auto.
Qed.

(** The concatenation of the words, without the white space outside and inside words, is the source
    without its white space and line ends *)
Definition blank (c : Z) : bool := zin c [13; 10; 32; 9].
Definition black (s : str) : str := filter (fun c => negb (blank c)) s.
Definition text_of (l : list word) : str := flat_map (fun w => match w with WByte c => [c] | WStr t => t end) l.
Lemma black_app : forall a b, black (a ++ b) = black a ++ black b.
Proof. intros a b. unfold black. apply filter_app. Qed.
Lemma black_ws : forall w, Forall ws w -> black w = nil.
Proof. induction 1 as [|c w [->| ->] H IH]; cbn; auto. Qed.
Lemma black_cons : forall c s, black (c :: s) = black [c] ++ black s.
Proof. intros c s. apply (black_app [c] s). Qed.
Lemma black_lws : forall a, lws a -> black a = nil.
Proof. intros a [w _ H|w _ H]; [apply black_ws; exact H|]. change (13 :: 10 :: w) with ([13; 10] ++ w). rewrite black_app, (black_ws w H). reflexivity. Qed.
Lemma black_lwss : forall a, lwss a -> black a = nil.
Proof. induction 1 as [a H|a b H1 H2 IH]; [apply black_lws; exact H|]. rewrite black_app, (black_lws a H1), IH. reflexivity. Qed.
Lemma black_qbody : forall b u, qbody b u -> black b = black u.
Proof.
  induction 1; try (rewrite (black_cons c), (black_cons c u); congruence); [reflexivity| |].
  - change (13 :: 10 :: w ++ r) with ([13; 10] ++ w ++ r). rewrite !black_app, (black_ws w) by assumption. rewrite (black_cons 32). cbn [app]. exact IHqbody.
  - rewrite (black_cons 92), (black_cons c), (black_cons 92 (c :: u)), (black_cons c u). congruence.
Qed.
Lemma black_cbody : forall b u, cbody b u -> black b = black u.
Proof.
  induction 1; try (rewrite (black_cons c), (black_cons c u); congruence); [reflexivity| | |].
  - change (13 :: 10 :: w ++ r) with ([13; 10] ++ w ++ r). rewrite !black_app, (black_ws w) by assumption. rewrite (black_cons 32). cbn [app]. exact IHcbody.
  - rewrite (black_cons 92), (black_cons c), (black_cons 92 (c :: u)), (black_cons c u). congruence.
  - rewrite (black_cons 40), black_app, (black_cons 41 r), (black_cons 40 (v ++ 41 :: u)), black_app, (black_cons 41 u). congruence.
Qed.
Lemma black_lexed : forall (tail : str -> list word -> Prop) sp s l, (forall s l, tail s l -> black s = black (text_of l)) ->
  lexed tail sp s l -> black s = black (text_of l).
Proof.
  intros tail sp s l HT H. assert (A : forall l1 l2, text_of (l1 ++ l2) = text_of l1 ++ text_of l2) by (intros; apply flat_map_app).
  induction H as [s l H|a s l Ha Hs H IH|c s l H1 H2 H3 H4 H IH|t s l Ht Hs H IH|raw u s l Hq H IH|raw u s l Hq H IH].
  - apply HT. exact H.
  - rewrite A, !black_app, (black_lwss a Ha), IH. destruct sp; reflexivity.
  - change (WByte c :: l) with ([WByte c] ++ l). rewrite A. change (c :: s) with ([c] ++ s). rewrite !black_app, IH. reflexivity.
  - change (WStr t :: l) with ([WStr t] ++ l). rewrite A, !black_app, IH. cbn [text_of flat_map]. rewrite app_nil_r. reflexivity.
  - change (WStr u :: l) with ([WStr u] ++ l). rewrite A, !black_app, IH. cbn [text_of flat_map]. rewrite app_nil_r. f_equal.
    destruct Hq as (b & v & Hb & -> & ->). rewrite (black_cons 34), (black_cons 34 (v ++ [34])), !black_app, (black_qbody b v Hb). reflexivity.
  - change (WStr u :: l) with ([WStr u] ++ l). rewrite A, !black_app, IH. cbn [text_of flat_map]. rewrite app_nil_r. f_equal.
    destruct Hq as (b & v & Hb & -> & ->). rewrite (black_cons 40), (black_cons 40 (v ++ [41])), !black_app, (black_cbody b v Hb). reflexivity.
Qed.
Theorem c38_concat : forall s ignore_sp l, bytes s -> words_of s ignore_sp = Ok l -> black (text_of l) = black s.
Proof.
  intros s ig l B H. apply c38_words in H; [|assumption]. symmetry. destruct H as [H|H]; (eapply black_lexed; [|exact H]).
  - intros ? ? [-> ->]. reflexivity.
  - intros ? ? (b & u & Hb & -> & ->). cbn [text_of flat_map]. rewrite app_nil_r, (black_cons 34), (black_cons 34 u), (black_qbody b u Hb). reflexivity.
Qed.

(** REFUTED: unterminated quoted strings are rejected.  They are accepted as the last word, whatever
    has been read of them (c38_words), and decode_quoted_string then drops a byte of the value *)
Theorem c38_unterminated_refuted :
  words_of (lit """abc") true = Ok [WStr (lit """abc")] /\ decode_quoted_string (lit """abc") = lit "ab".
Proof. split; reflexivity. Qed.
Theorem c38_unterminated : forall b u, qbody b u -> bytes b -> forall ignore_sp,
  words_of (34 :: b) ignore_sp = Ok [WStr (34 :: u)].
Proof.
  intros b u H B ig. apply c38_words; [apply bytes_cons; split; [lia|assumption]|].
  right. constructor. exists b, u. auto.
Qed.
(** REFUTED: a token is of the bytes less than 128 that are neither controls nor separators *)
Theorem c38_token_refuted : words_of [233; 255] true = Ok [WStr [233; 255]] /\ check_token [233; 255] = Err ValueError.
Proof. split; reflexivity. Qed.

Example c38_ex1 : words_of (lit "text/html; q=""a b"" (see (3))") true =
  Ok [WStr (lit "text"); WByte 47; WStr (lit "html"); WByte 59; WStr (lit "q"); WByte 61; WStr (lit """a b"""); WStr (lit "(see (3))")].
Proof. reflexivity. Qed.
Example c38_ex2 : words_of (lit "a  b" ++ [13; 10; 32; 9] ++ lit "c") false = Ok [WStr (lit "a"); WByte 32; WStr (lit "b"); WByte 32; WStr (lit "c")].
Proof. reflexivity. Qed.
Example c38_ex3 : words_of (lit "(open") true = Err ParserError /\ words_of [13; 10] true = Err ParserError.
Proof. split; reflexivity. Qed.

Print Assumptions c37_decode.
Print Assumptions c37_parse.
Print Assumptions c37_unforced.
Print Assumptions c37_unforced_parse.
Print Assumptions c38_words.
Print Assumptions c38_error.
Print Assumptions c38_word_ok.
Print Assumptions c38_concat.
Print Assumptions c38_unterminated.
