(** Proofs for C39: the parameter classes. *)
From Coq Require Import Permutation Sorted.
From Verif Require Import Py Num UriModel UriRel HttpModel HttpSpec HttpProofs HttpLex HttpParamModel HttpParamSpec HttpProps HttpParamProofs.

Definition ending : str -> list word -> Prop := fun s l => s = nil /\ l = nil.
Lemma lex_end : forall sp, lexed ending sp [] [].
Proof. intros sp. constructor. split; reflexivity. Qed.
Lemma words_ok : forall s ig l, lexed ending (negb ig) s l -> words_of s ig = Ok l.
Proof.
  intros s ig l H. unfold words_of. eapply words_complete; [|exact H|lia]. intros s0 l0 [-> ->] n _. destruct n; reflexivity.
Qed.

(** ** letters *)
Definition isA (s : str) : Prop := Forall (fun c => 0 <= c < 128) s.
Lemma lower_u_c : forall c, 0 <= c < 128 -> lower_u c = lower_c c.
Proof. intros c H. unfold lower_u, lower_c. replace ((192 <=? c) && (c <=? 222) && negb (c =? 215)) with false by (symmetry; repeat (apply andb_false_iff; left); b2p; apply Z.leb_gt; lia). rewrite orb_false_r. reflexivity. Qed.
Lemma lower_c_id : forall c, lower_c (lower_c c) = lower_c c.
Proof. intros c. unfold lower_c. repeat destr; b2p; try lia; reflexivity. Qed.
Lemma lower_c_range : forall c, 0 <= c < 128 -> 0 <= lower_c c < 128.
Proof. intros c. unfold lower_c. repeat destr; b2p; lia. Qed.
Lemma u_b_lower : forall s, isA s -> u_lower (b_lower s) = u_lower s.
Proof.
  induction 1 as [|c s H F IH]; [reflexivity|]. cbn. f_equal; [|exact IH].
  rewrite !lower_u_c by (auto using lower_c_range). apply lower_c_id.
Qed.
Lemma u_lower_A : forall s, isA s -> u_lower s = b_lower s.
Proof. induction 1 as [|c s H F IH]; [reflexivity|]. cbn. f_equal; [apply lower_u_c; exact H|exact IH]. Qed.
Lemma b_lower_A : forall s, isA s -> isA (b_lower s).
Proof. induction 1; constructor; auto using lower_c_range. Qed.
Lemma b_lower_id : forall s, b_lower (b_lower s) = b_lower s.
Proof. intros s. unfold b_lower. rewrite map_map. apply map_ext. intros c. apply lower_c_id. Qed.
Lemma tok_lower : forall c, tok c -> tok (lower_c c).
Proof.
  intros c [H1 H2]. unfold lower_c. destr; [|split; assumption]. b2p. split.
  - intros [?|?]; lia.
  - intros [X|X]; [|lia]. cbn in X. repeat (destruct X as [X|X]; [lia|]). exact X.
Qed.
Lemma b_lower_token : forall s, token s -> token (b_lower s).
Proof.
  intros s [H1 H2]. split; [destruct s; [congruence|discriminate]|]. unfold b_lower. rewrite Forall_map.
  eapply Forall_impl; [|exact H2]. apply tok_lower.
Qed.
Lemma A_bytes : forall s, isA s -> bytes s.
Proof. intros s H. eapply Forall_impl; [|exact H]. intros c X. cbn beta in *. lia. Qed.
Lemma ascii_app : forall a b, isA a -> isA b -> isA (a ++ b).
Proof. intros. apply Forall_app. auto. Qed.

(** ** numbers *)
Lemma digit_tok : forall c, dec_digit c -> tok c /\ 0 <= c < 128.
Proof.
  intros c [H1 H2]. split; [|lia]. split; [intros [?|?]; lia|]. intros [X|X]; [|lia]. cbn in X. repeat (destruct X as [X|X]; [lia|]). exact X.
Qed.
Lemma is_digits_ok : forall s, s <> nil -> Forall dec_digit s -> is_digits s = true.
Proof.
  intros s Hn F. unfold is_digits, all_of. destruct s as [|c s]; [congruence|]. apply forallb_forall. intros x Hx.
  rewrite Forall_forall in F. apply F in Hx. unfold is_digit. destruct Hx. apply andb_true_iff. split; apply Z.leb_le; lia.
Qed.
Lemma digits_token : forall s, s <> nil -> Forall dec_digit s -> ascii_token s.
Proof.
  intros s Hn F. split; [split; [exact Hn|]|]; (eapply Forall_impl; [|exact F]); intros c Hc; apply (digit_tok c Hc).
Qed.
Lemma dec_str_nat : forall n, 0 <= n -> dec_str n = dec_nat n.
Proof. intros n H. unfold dec_str. destr; b2p; [lia|reflexivity]. Qed.

Lemma hexd_tok : forall v, 0 <= v < 16 -> is_hex (hexd v) = true /\ hexv (hexd v) = v /\ tok (hexd v) /\ 0 <= hexd v < 128.
Proof.
  intros v H. destruct (hexd_ok v H) as (H1 & H2 & H3). split; [|split; [exact H2|]].
  - unfold is_hexd in H1. unfold is_hex, is_digit. destruct ((48 <=? hexd v) && (hexd v <=? 57)); [reflexivity|].
    cbn [orb] in *. rewrite orb_comm. exact H1.
  - assert (X : 48 <= hexd v <= 57 \/ 65 <= hexd v <= 70).
    { unfold hexd. destr; b2p; lia. }
    split; [|lia]. split; [intros [?|?]; lia|]. intros [Y|Y]; [|lia]. cbn in Y. repeat (destruct Y as [Y|Y]; [lia|]). exact Y.
Qed.
Lemma hexadecimal_app a b : hexadecimal (a ++ b) = hexadecimal a * 16 ^ Z.of_nat (length b) + hexadecimal b.
Proof.
  induction a as [|c a IH]; [cbn [app hexadecimal]; lia|].
  cbn [app hexadecimal]. rewrite IH, app_length, Nat2Z.inj_add, Z.pow_add_r by lia. ring.
Qed.
Definition hexdigit_ok (c : Z) : Prop := is_hex c = true /\ tok c /\ 0 <= c < 128.
Lemma hex_go_spec : forall fuel n acc, 0 <= n -> Z.of_nat fuel > n ->
  exists d, hex_go fuel n acc = d ++ acc /\ Forall hexdigit_ok d /\ hexadecimal d = n /\ d <> [].
Proof.
  induction fuel as [|f IH]; intros n acc Hn Hf; [lia|]. cbn [hex_go].
  destruct (hexd_tok (n mod 16)) as (T1 & T2 & T3 & T4); [apply Z.mod_pos_bound; lia|].
  destruct (n <? 16) eqn:E; b2p.
  - exists [hexd (n mod 16)]. psplit; try discriminate; auto.
    + constructor; [split; [exact T1|split; [exact T3|exact T4]]|constructor].
    + cbn [hexadecimal length]. rewrite T2, Z.mod_small by lia. change (16 ^ Z.of_nat 0) with 1. lia.
  - assert (Hd : 1 <= n / 16 < n) by (split; [apply Z.div_le_lower_bound; lia | apply Z.div_lt; lia]).
    destruct (IH (n / 16) (hexd (n mod 16) :: acc)) as (d & H1 & H2 & H3 & H4); try lia.
    exists (d ++ [hexd (n mod 16)]). psplit.
    + rewrite H1, <- app_assoc. reflexivity.
    + apply Forall_app. split; [exact H2|]. constructor; [split; [exact T1|split; [exact T3|exact T4]]|constructor].
    + rewrite hexadecimal_app, H3. cbn [length hexadecimal]. rewrite T2. change (16 ^ Z.of_nat 1) with 16.
      change (16 ^ Z.of_nat 0) with 1. pose proof (Z.div_mod n 16). lia.
    + destruct d; discriminate.
Qed.
Lemma hex_nat_spec : forall n, 0 <= n -> ascii_token (hex_nat n) /\ is_hexdigits (hex_nat n) = true /\ hexadecimal (hex_nat n) = n.
Proof.
  intros n H. destruct (hex_go_spec (S (Z.to_nat n)) n []) as (d & H1 & H2 & H3 & H4); try lia.
  unfold hex_nat. rewrite H1, app_nil_r. split; [|split; [|exact H3]].
  - split; [split; [exact H4|]|]; (eapply Forall_impl; [|exact H2]); intros c Hc; apply Hc.
  - unfold is_hexdigits, all_of. destruct d as [|c d]; [congruence|]. apply forallb_forall. intros x Hx.
    rewrite Forall_forall in H2. apply H2 in Hx. apply Hx.
Qed.

(** ** words then parsing *)
Lemma lex_tok : forall (tail : str -> list word -> Prop) sp t s l, token t -> stop_tok s -> lexed tail sp s l ->
  lexed tail sp (t ++ s) (WStr t :: l).
Proof. intros. apply lx_token; assumption. Qed.
Lemma lit_token : forall s, s <> nil -> existsb special s = false -> token s.
Proof. intros s H1 H2. split; [exact H1|]. apply special_tok. exact H2. Qed.

Lemma version_ok : forall v, 0 <= fst v -> 0 <= snd v -> version_from_str (version_to_bytes v) = Ok v.
Proof.
  intros [a b] Ha Hb. cbn [fst snd] in *. unfold version_to_bytes. cbn [fst snd]. rewrite !dec_str_nat by assumption.
  destruct (dec_nat_spec a Ha) as (A1 & A2 & A3 & _). destruct (dec_nat_spec b Hb) as (B1 & B2 & B3 & _).
  set (t := dec_nat a ++ 46 :: dec_nat b).
  assert (T : token t).
  { split; [unfold t; destruct (dec_nat a); discriminate|]. apply Forall_app. split; [|constructor].
    - eapply Forall_impl; [|exact A1]. intros c Hc. apply (digit_tok c Hc).
    - apply is_tok_tok. reflexivity.
    - eapply Forall_impl; [|exact B1]. intros c Hc. apply (digit_tok c Hc). }
  assert (W : words_of (lit "HTTP/" ++ dec_nat a ++ lit "." ++ dec_nat b) true = Ok [WStr (lit "HTTP"); WByte 47; WStr t]).
  { apply words_ok. change (lit "HTTP/" ++ dec_nat a ++ lit "." ++ dec_nat b) with (lit "HTTP" ++ 47 :: t).
    apply lex_tok; [apply lit_token; [discriminate|reflexivity]|exact (stop_sep 47 nil eq_refl)|].
    apply lex_sep; [reflexivity|reflexivity|]. rewrite <- (app_nil_r t) at 1. apply lex_tok; [exact T|exact I|apply lex_end]. }
  unfold version_from_str. rewrite W. cbn [rbind]. unfold require_http_version.
  rewrite parse_sp_str, require_token_ok by (apply lit_token; [discriminate|reflexivity]). cbn [rbind].
  change (str_eqb (b_upper (lit "HTTP")) (lit "HTTP")) with true. cbn [negb].
  change (require_separator 47 (parse_sp (WByte 47 :: ?x))) with (Ok x). cbn [rbind].
  rewrite parse_sp_str, (require_token_ok t _ T). cbn [rbind].
  assert (NA : ~ In 46 (dec_nat a)). { intros X. rewrite Forall_forall in A1. apply A1 in X. destruct X. lia. }
  assert (NB : ~ In 46 (dec_nat b)). { intros X. rewrite Forall_forall in B1. apply B1 in X. destruct X. lia. }
  unfold t. rewrite split_app, split_no by assumption. rewrite !is_digits_ok by assumption. cbn [andb rbind require_end].
  rewrite A2, B2. reflexivity.
Qed.

(** the words of a formatted dictionary *)
Lemma format_ok : forall (tail : str -> list word -> Prop) sp d s l, good_params d -> stop_tok s -> lexed tail sp s l ->
  exists b, format_parameters d = Ok b /\ stop_tok (b ++ s) /\ lexed tail sp (b ++ s) (pwords sp (sort_params d) ++ l).
Proof. intros tail sp d s l G Hs H. unfold format_parameters. apply lex_params; [apply sort_good; exact G|exact Hs|exact H]. Qed.
Lemma parse_format_ok : forall sp allsp d l, good_params d -> parse_sp l = l -> one_parameter allsp false None l = None ->
  parse_parameters allsp false None [] (pwords sp (sort_params d) ++ l) = (sort_params d, l).
Proof. intros sp allsp d l G H1 H2. destruct (sort_good d G) as [N F]. apply parse_parameters_ok; assumption. Qed.

Lemma chunk_ok : forall c, 0 <= c_size c -> good_params (c_ext c) ->
  exists b, chunk_to_bytes c = Ok b /\ chunk_from_str b = Ok (mkchunk (c_size c) (sort_params (c_ext c))).
Proof.
  intros [n d] Hn G. cbn [c_size c_ext] in *. destruct (hex_nat_spec n Hn) as ([T A] & H1 & H2).
  destruct (format_ok ending false d [] [] G I (lex_end false)) as (b & E & Hs & L). rewrite !app_nil_r in *.
  exists (hex_nat n ++ b). unfold chunk_to_bytes. cbn [c_size c_ext]. rewrite E. cbn [rbind].
  replace (n <? 0) with false by (symmetry; apply Z.ltb_ge; lia). split; [reflexivity|].
  unfold chunk_from_str. rewrite (words_ok (hex_nat n ++ b) true (WStr (hex_nat n) :: pwords false (sort_params d)))
    by (apply lex_tok; assumption). cbn [rbind]. unfold require_chunk. rewrite parse_sp_str. unfold require_hexinteger, parse_hexinteger.
  rewrite H1. cbn [rbind]. rewrite H2.
  rewrite <- (app_nil_r (pwords false (sort_params d))), (parse_format_ok false true d []) by (auto; reflexivity). reflexivity.
Qed.

Lemma mt_ok : forall m, ascii_token (mt_type m) -> ascii_token (mt_subtype m) -> good_params (mt_params m) ->
  exists b, mt_to_bytes m = Ok b /\
    mt_from_str b = Ok (mkmt (b_lower (mt_type m)) (b_lower (mt_subtype m)) (sort_params (mt_params m))).
Proof.
  intros [t u d] [T1 A1] [T2 A2] G. cbn [mt_type mt_subtype mt_params] in *.
  destruct (format_ok ending true d [] [] G I (lex_end true)) as (b & E & Hs & L). rewrite !app_nil_r in *.
  exists (t ++ lit "/" ++ u ++ b). unfold mt_to_bytes. cbn [mt_type mt_subtype mt_params].
  rewrite ascii_ok. 2:{ apply Forall_app. split; [exact A1|]. change (lit "/" ++ u) with (47 :: u). constructor; [lia|exact A2]. }
  rewrite E. cbn [rbind]. split; [rewrite <- !app_assoc; reflexivity|].
  unfold mt_from_str. change (t ++ lit "/" ++ u ++ b) with (t ++ 47 :: u ++ b).
  rewrite (words_ok (t ++ 47 :: u ++ b) false (WStr t :: WByte 47 :: WStr u :: pwords true (sort_params d))).
  2:{ apply lex_tok; [exact T1|exact (stop_sep 47 nil eq_refl)|]. apply lex_sep; [reflexivity|reflexivity|]. apply lex_tok; assumption. }
  cbn [rbind]. unfold require_media_type. rewrite parse_sp_str, (require_token_ok t _ T1). cbn [rbind].
  rewrite (ascii_ok (b_lower t)) by (apply b_lower_A; exact A1). cbn [rbind].
  change (require_separator 47 (WByte 47 :: ?x)) with (Ok x). cbn [rbind].
  rewrite (require_token_ok u _ T2). cbn [rbind]. rewrite (ascii_ok (b_lower u)) by (apply b_lower_A; exact A2). cbn [rbind].
  assert (P : parse_sp (pwords true (sort_params d)) = pwords true (sort_params d)) by (destruct (sort_params d) as [|[k [n v]] r]; reflexivity).
  rewrite P, <- (app_nil_r (pwords true (sort_params d))), (parse_format_ok true false d []) by (auto; reflexivity). reflexivity.
Qed.

Lemma chunked_dec : forall t, isA t -> str_eqb (u_lower t) (lit "chunked") = str_eqb (b_lower t) (lit "chunked").
Proof. intros t H. rewrite u_lower_A by exact H. reflexivity. Qed.
(** the words of a formatted transfer encoding, whatever is after it *)
Definition te_words (t : tencoding) : list word := WStr (te_token t) :: pwords false (sort_params (te_params t)).
Definition good_te (t : tencoding) : Prop :=
  ascii_token (te_token t) /\ b_lower (te_token t) = te_token t /\ good_params (te_params t)
  /\ (te_token t = lit "chunked" -> te_params t = []).
Lemma new_te_good : forall t p, ascii_token t -> good_params p -> good_te (new_te t p).
Proof.
  intros t p [T A] G. unfold new_te. rewrite u_lower_A by exact A.
  assert (X : ascii_token (b_lower t)) by (split; [apply b_lower_token; exact T|apply b_lower_A; exact A]).
  destruct (str_eqb (b_lower t) (lit "chunked")) eqn:E; unfold good_te; cbn [te_token te_params].
  - split; [exact X|]. split; [apply b_lower_id|]. split; [split; constructor|reflexivity].
  - apply str_eqb_neq in E. split; [exact X|]. split; [apply b_lower_id|]. split; [exact G|congruence].
Qed.
Lemma te_lex : forall (tail : str -> list word -> Prop) t s l, good_te t -> stop_tok s -> lexed tail false s l ->
  exists b, te_to_bytes t = Ok b /\ lexed tail false (b ++ s) (te_words t ++ l).
Proof.
  intros tail [t d] s l ([T A] & Hl & G & Hc) Hs L. cbn [te_token te_params] in *.
  destruct (format_ok tail false d s l G Hs L) as (b & E & Hs2 & L2).
  exists (t ++ b). unfold te_to_bytes, te_words. cbn [te_token te_params]. rewrite (ascii_ok t A), E. cbn [rbind]. split; [reflexivity|].
  rewrite <- app_assoc. cbn [app]. apply lex_tok; assumption.
Qed.
Definition sorted_te (t : tencoding) : tencoding := mkte (te_token t) (sort_params (te_params t)).
Lemma te_parse : forall t l, good_te t -> parse_sp l = l -> one_parameter true false None l = None ->
  require_transfer_encoding (te_words t ++ l) = Ok (sorted_te t, l).
Proof.
  intros [t d] l ([T A] & Hl & G & Hc) H1 H2. cbn [te_token te_params] in *. unfold te_words, require_transfer_encoding, sorted_te.
  cbn [te_token te_params app]. rewrite parse_sp_str, (require_token_ok t _ T). cbn [rbind]. rewrite Hl.
  destruct (str_eqb t (lit "chunked")) eqn:E; cbn [negb].
  - apply str_eqb_eq in E. rewrite (Hc E), E. reflexivity.
  - rewrite (parse_format_ok false true d l G H1 H2). unfold new_te. rewrite u_lower_A by exact A. rewrite Hl, E. reflexivity.
Qed.
Lemma te_ok : forall t, good_te t -> exists b, te_to_bytes t = Ok b /\ te_from_str b = Ok (sorted_te t).
Proof.
  intros t G. destruct (te_lex ending t [] [] G I (lex_end false)) as (b & E & L). exists b. split; [exact E|].
  unfold te_from_str. rewrite !app_nil_r in L. rewrite (words_ok b true (te_words t) L). cbn [rbind].
  rewrite <- (app_nil_r (te_words t)), (te_parse t [] G) by reflexivity. reflexivity.
Qed.

Fixpoint te_join (l : list str) : str :=
  match l with [] => [] | [b] => b | b :: r => b ++ lit ", " ++ te_join r end.
Fixpoint tel_words (l : list tencoding) : list word :=
  match l with [] => [] | [t] => te_words t | t :: r => te_words t ++ WByte 44 :: tel_words r end.
Lemma te_join_cons : forall b c l, te_join (b :: c :: l) = b ++ lit ", " ++ te_join (c :: l).
Proof. reflexivity. Qed.
Lemma tel_words_cons : forall b c l, tel_words (b :: c :: l) = te_words b ++ WByte 44 :: tel_words (c :: l).
Proof. reflexivity. Qed.
Lemma te_first : forall t b, good_te t -> te_to_bytes t = Ok b -> exists r, b = te_token t ++ r.
Proof.
  intros [t d] b ([T A] & _) E. unfold te_to_bytes in E. cbn [te_token te_params] in *. rewrite (ascii_ok t A) in E. cbn [rbind] in E.
  destruct (format_parameters d) as [x|]; [|discriminate]. cbn in E. inversion E. eexists. reflexivity.
Qed.
Lemma tel_lex : forall l, Forall good_te l -> exists bs, Forall2 (fun t b => te_to_bytes t = Ok b) l bs
  /\ lexed ending false (te_join bs) (tel_words l).
Proof.
  induction 1 as [|t l G F IH]; [exists []; split; [constructor|apply lex_end]|].
  destruct IH as (bs & F2 & L). destruct l as [|u l].
  - inversion F2; subst. destruct (te_lex ending t [] [] G I (lex_end false)) as (b & E & L2). rewrite !app_nil_r in L2.
    exists [b]. split; [repeat constructor; exact E|exact L2].
  - inversion F2 as [|? c ? bs' E2 F3]; subst. inversion F as [|? ? G2 _]; subst.
    assert (NL : no_lws (te_join (c :: bs'))).
    { destruct (te_first u c G2 E2) as [r ->]. destruct G2 as ([Tu _] & _). destruct bs' as [|c2 bs']; [|rewrite te_join_cons];
      cbn [te_join]; rewrite <- ?app_assoc; apply token_no_lws; exact Tu. }
    assert (L3 : lexed ending false (44 :: 32 :: te_join (c :: bs')) (WByte 44 :: tel_words (u :: l))).
    { apply lex_sep; [reflexivity|reflexivity|]. apply (lex_sp ending false); assumption. }
    destruct (te_lex ending t _ _ G (stop_sep 44 (32 :: te_join (c :: bs')) eq_refl) L3) as (b & E & L2).
    exists (b :: c :: bs'). split; [constructor; assumption|]. rewrite te_join_cons, tel_words_cons. exact L2.
Qed.
Lemma te_words_len : forall t, exists w r, te_words t = w :: r.
Proof. intros t. eexists. eexists. reflexivity. Qed.
Lemma te_list_parse : forall l f, Forall good_te l -> (length (tel_words l) <= f)%nat -> te_list_loop f (tel_words l) = Ok (map sorted_te l).
Proof.
  intros l f G. revert f. induction G as [|t l G F IH]; intros f Hf; [destruct f; reflexivity|].
  destruct l as [|u l].
  - cbn [tel_words map] in *. unfold te_words in *. cbn [length] in Hf. destruct f as [|f]; [lia|]. cbn [te_list_loop].
    change (parse_separator 44 (WStr (te_token t) :: ?x)) with (false, WStr (te_token t) :: x). cbv iota beta.
    change (WStr (te_token t) :: pwords false (sort_params (te_params t))) with (te_words t).
    rewrite <- (app_nil_r (te_words t)), (te_parse t [] G) by reflexivity. destruct f; reflexivity.
  - rewrite tel_words_cons in *. rewrite app_length in Hf. unfold te_words at 1 in Hf. cbn [length] in Hf.
    destruct f as [|f]; [lia|].
    assert (Es : te_list_loop (S f) (te_words t ++ WByte 44 :: tel_words (u :: l)) =
      let! (x, ws') := require_transfer_encoding (te_words t ++ WByte 44 :: tel_words (u :: l)) in
      let! r := te_list_loop f ws' in Ok (x :: r)) by reflexivity.
    rewrite Es, (te_parse t _ G) by reflexivity. cbn [rbind]. destruct f as [|f]; [lia|].
    assert (Es2 : te_list_loop (S f) (WByte 44 :: tel_words (u :: l)) = te_list_loop f (tel_words (u :: l))) by reflexivity.
    rewrite Es2, IH by lia. reflexivity.
Qed.
Lemma te_list_ok : forall l, Forall good_te l -> exists bs, Forall2 (fun t b => te_to_bytes t = Ok b) l bs
  /\ te_list_from_str (te_join bs) = Ok (map sorted_te l).
Proof.
  intros l G. destruct (tel_lex l G) as (bs & F & L). exists bs. split; [exact F|]. unfold te_list_from_str.
  rewrite (words_ok _ true _ L). cbn [rbind].
  assert (P : parse_sp (tel_words l) = tel_words l) by (destruct l as [|t [|u l]]; reflexivity).
  rewrite P. apply te_list_parse; [exact G|lia].
Qed.

(** ** product tokens *)
Definition good_pt (p : product) : Prop := ascii_token (pt_token p) /\ match pt_version p with Some v => ascii_token v | None => True end.
Definition pt_words (p : product) : list word :=
  WStr (pt_token p) :: match pt_version p with Some v => [WByte 47; WStr v] | None => [] end.
Lemma pt_lex : forall (tail : str -> list word -> Prop) p s l, good_pt p -> stop_tok s -> lexed tail false s l ->
  exists b, pt_to_bytes p = Ok b /\ (exists r, b = pt_token p ++ r) /\ lexed tail false (b ++ s) (pt_words p ++ l).
Proof.
  intros tail [t v] s l [[T A] Hv] Hs L. cbn [pt_token pt_version] in *. unfold pt_to_bytes, pt_words. cbn [pt_token pt_version].
  destruct v as [v|].
  - destruct Hv as [Tv Av]. exists (t ++ 47 :: v). rewrite ascii_ok by (apply Forall_app; split; [exact A|change (lit "/" ++ v) with (47 :: v); constructor; [lia|exact Av]]).
    split; [reflexivity|]. split; [eexists; reflexivity|].
    rewrite <- app_assoc. cbn [app]. apply lex_tok; [exact T|exact (stop_sep 47 nil eq_refl)|].
    apply lex_sep; [reflexivity|reflexivity|]. apply lex_tok; assumption.
  - exists t. rewrite (ascii_ok t A). split; [reflexivity|]. split; [exists []; rewrite app_nil_r; reflexivity|]. apply lex_tok; assumption.
Qed.
Lemma pt_parse : forall p l, good_pt p -> (forall x, l <> WByte 47 :: x) -> (forall x, l <> WByte 32 :: x) ->
  require_product_token (pt_words p ++ l) = Ok (p, l).
Proof.
  intros [t v] l [[T A] Hv] H1 H2. cbn [pt_token pt_version] in *. unfold pt_words, require_product_token. cbn [pt_token pt_version].
  cbn [app]. rewrite parse_sp_str, (require_token_ok t _ T). cbn [rbind]. rewrite (ascii_ok t A). cbn [rbind]. destruct v as [v|].
  - destruct Hv as [Tv Av]. cbn [app]. change (parse_separator 47 (parse_sp (WByte 47 :: ?x))) with (true, x). cbv iota beta.
    rewrite (require_token_ok v _ Tv). cbn [rbind]. rewrite (ascii_ok v Av). reflexivity.
  - cbn [app]. assert (P : parse_sp l = l).
    { destruct l as [|[b|w] l]; try reflexivity. unfold parse_sp, parse_separator. destruct (b =? 32) eqn:E; [b2p; subst; exfalso; exact (H2 l eq_refl)|reflexivity]. }
    rewrite P. assert (Q : parse_separator 47 l = (false, l)).
    { destruct l as [|[b|w] l]; try reflexivity. unfold parse_separator. destruct (b =? 47) eqn:E; [b2p; subst; exfalso; exact (H1 l eq_refl)|reflexivity]. }
    rewrite Q. reflexivity.
Qed.
Lemma pt_ok : forall p, good_pt p -> exists b, pt_to_bytes p = Ok b /\ pt_from_str b = Ok p.
Proof.
  intros p G. destruct (pt_lex ending p [] [] G I (lex_end false)) as (b & E & _ & L). exists b. split; [exact E|]. rewrite app_nil_r in L.
  unfold pt_from_str. rewrite (words_ok b true _ L). cbn [rbind].
  assert (P : parse_sp (pt_words p ++ []) = pt_words p ++ []) by reflexivity. rewrite P, (pt_parse p []) by (auto; discriminate). reflexivity.
Qed.
Lemma ptl_lex : forall l, Forall good_pt l -> exists bs, Forall2 (fun t b => pt_to_bytes t = Ok b) l bs
  /\ lexed ending false (join_on 32 bs) (flat_map pt_words l).
Proof.
  induction 1 as [|t l G F IH]; [exists []; split; [constructor|apply lex_end]|].
  destruct IH as (bs & F2 & L). destruct l as [|u l].
  - inversion F2; subst. destruct (pt_lex ending t [] [] G I (lex_end false)) as (b & E & _ & L2). rewrite app_nil_r in L2.
    exists [b]. split; [repeat constructor; exact E|exact L2].
  - inversion F2 as [|? c ? bs' E2 F3]; subst. inversion F as [|? ? G2 _]; subst.
    assert (NL : no_lws (join_on 32 (c :: bs'))).
    { destruct (pt_lex ending u [] [] G2 I (lex_end false)) as (c' & E2' & [r Er] & _). rewrite E2 in E2'. injection E2' as Ec. rewrite Ec, Er. destruct G2 as ([Tu _] & _). destruct bs' as [|c2 bs']; cbn [join_on]; rewrite <- ?app_assoc; apply token_no_lws; exact Tu. }
    assert (L3 : lexed ending false (32 :: join_on 32 (c :: bs')) (flat_map pt_words (u :: l))).
    { apply (lex_sp ending false); assumption. }
    destruct (pt_lex ending t _ _ G (stop_sep 32 (join_on 32 (c :: bs')) eq_refl) L3) as (b & E & _ & L2).
    exists (b :: c :: bs'). split; [constructor; assumption|]. exact L2.
Qed.
Lemma pt_list_parse : forall l f, Forall good_pt l -> (length (flat_map pt_words l) <= f)%nat -> pt_list_loop f (flat_map pt_words l) = Ok l.
Proof.
  intros l f G. revert f. induction G as [|t l G F IH]; intros f Hf; [destruct f; reflexivity|].
  cbn [flat_map] in *. rewrite app_length in Hf. unfold pt_words at 1 in Hf. cbn [length] in Hf. destruct f as [|f]; [lia|].
  assert (Es : pt_list_loop (S f) (pt_words t ++ flat_map pt_words l) =
      let! (x, ws) := require_product_token (pt_words t ++ flat_map pt_words l) in
      let! r := pt_list_loop f (parse_sp ws) in Ok (x :: r)) by reflexivity.
  assert (X : forall b x, flat_map pt_words l <> WByte b :: x) by (intros b x; destruct l; discriminate).
  rewrite Es, (pt_parse t _ G) by auto. cbn [rbind].
  assert (P : parse_sp (flat_map pt_words l) = flat_map pt_words l) by (destruct l; reflexivity).
  rewrite P, IH by lia. reflexivity.
Qed.
Lemma pt_list_ok : forall l, Forall good_pt l -> exists bs, Forall2 (fun t b => pt_to_bytes t = Ok b) l bs
  /\ pt_list_from_str (join_on 32 bs) = Ok l.
Proof.
  intros l G. destruct (ptl_lex l G) as (bs & F & L). exists bs. split; [exact F|]. unfold pt_list_from_str.
  rewrite (words_ok _ true _ L). cbn [rbind].
  assert (P : parse_sp (flat_map pt_words l) = flat_map pt_words l) by (destruct l; reflexivity).
  rewrite P. apply pt_list_parse; [exact G|lia].
Qed.

(** ** language tags *)
Lemma join_forall : forall (P : Z -> Prop) c l, P c -> Forall (Forall P) l -> Forall P (join_on c l).
Proof.
  intros P c l Hc F. induction F as [|w l H F IH]; [constructor|]. destruct l as [|x l]; [exact H|].
  change (join_on c (w :: x :: l)) with (w ++ c :: join_on c (x :: l)). apply Forall_app. split; [exact H|]. constructor; assumption.
Qed.
Definition tagchar (c : Z) : Prop := tok c /\ 0 <= c < 128 /\ c <> 45.
Lemma ascii_all_ok : forall l, Forall isA l -> ascii_all l = Ok l.
Proof. induction 1 as [|s l H F IH]; [reflexivity|]. cbn. rewrite (ascii_ok s H). cbn [rbind]. rewrite IH. reflexivity. Qed.
Lemma lt_ok : forall t, Forall (Forall tagchar) (lt_primary t :: lt_subtags t) -> (lt_primary t <> [] \/ lt_subtags t <> []) ->
  exists b, lt_to_bytes t = Ok b /\ lt_from_str b = Ok t.
Proof.
  intros [p l] F Hn. cbn [lt_primary lt_subtags] in *. set (x := join_on 45 (p :: l)).
  assert (T : token x).
  { split.
    - unfold x. destruct l as [|y l]; cbn [join_on]; [destruct Hn; congruence|]. destruct p; discriminate.
    - apply join_forall; [apply is_tok_tok; reflexivity|]. eapply Forall_impl; [|exact F]. intros s Hs. eapply Forall_impl; [|exact Hs]. intros c Hc. apply Hc. }
  assert (A : isA x).
  { apply join_forall; [lia|]. eapply Forall_impl; [|exact F]. intros s Hs. eapply Forall_impl; [|exact Hs]. intros c Hc. apply Hc. }
  exists x. unfold lt_to_bytes. cbn [lt_primary lt_subtags]. fold x. split; [apply ascii_ok; exact A|].
  assert (W : words_of x false = Ok [WStr x]).
  { apply words_ok. rewrite <- (app_nil_r x) at 1. apply lex_tok; [exact T|exact I|apply lex_end]. }
  unfold lt_from_str. rewrite W. cbn [rbind]. unfold require_language_tag. rewrite !parse_sp_str, (require_token_ok x _ T). cbn [rbind].
  assert (S : split_on 45 x = p :: l).
  { unfold x. apply split_join; [discriminate|]. eapply Forall_impl; [|exact F]. intros s Hs X. rewrite Forall_forall in Hs. apply Hs in X. destruct X as (_ & _ & X). congruence. }
  rewrite S, ascii_all_ok; [reflexivity|]. eapply Forall_impl; [|exact F]. intros s Hs. eapply Forall_impl; [|exact Hs]. intros c Hc. apply Hc.
Qed.

(** ** entity tags *)
Lemma et_ok : forall e, bytes (et_tag e) -> et_from_str (et_to_bytes e) = Ok e.
Proof.
  intros [t w] B. cbn [et_tag] in B. unfold et_to_bytes, et_from_str. cbn [et_tag et_weak]. destruct w.
  - rewrite (words_ok (lit "W/" ++ quote_string t true) true [WStr (lit "W"); WByte 47; WStr (quote_string t true)]).
    2:{ change (lit "W/" ++ ?x) with (lit "W" ++ 47 :: x). apply lex_tok; [apply lit_token; [discriminate|reflexivity]|exact (stop_sep 47 nil eq_refl)|].
        apply lex_sep; [reflexivity|reflexivity|]. rewrite <- (app_nil_r (quote_string t true)) at 1. apply lex_quoted; [exact B|apply lex_end]. }
    cbn [rbind]. unfold require_entity_tag. rewrite parse_sp_str, parse_token_ok by (apply lit_token; [discriminate|reflexivity]). cbv iota beta zeta.
    change (str_eqb (b_upper (lit "W")) (lit "W")) with true. cbn [negb].
    change (require_separator 47 (parse_sp (WByte 47 :: ?x))) with (Ok x). cbn [rbind]. rewrite parse_sp_str, (parse_quoted_value t _ B). reflexivity.
  - cbn [app]. rewrite (words_ok (quote_string t true) true [WStr (quote_string t true)]).
    2:{ rewrite <- (app_nil_r (quote_string t true)) at 1. apply lex_quoted; [exact B|apply lex_end]. }
    cbn [rbind]. unfold require_entity_tag. rewrite parse_sp_str, parse_token_quoted. cbv iota beta zeta. cbn [rbind].
    rewrite parse_sp_str, (parse_quoted_value t _ B). reflexivity.
Qed.
