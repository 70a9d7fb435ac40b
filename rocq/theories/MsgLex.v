(** Proofs for C72-C78: what the parsers of parameters say of the texts of MsgSpec. *)
From Verif Require Import Py Num UriModel UriRel HttpModel HttpSpec HttpProofs HttpLex HttpParamModel HttpParamSpec
  HttpProps HttpParamProofs HttpParamMain MsgModel MsgSpec.

Lemma crlf_eq : CRLF = crlf. Proof. reflexivity. Qed.
Lemma lower_eq : forall s, b_lower s = lower s. Proof. reflexivity. Qed.
Lemma ascii_tok_eq : forall s, ascii_tok s <-> ascii_token s. Proof. reflexivity. Qed.

(** ** parameters *)
Definition sps (sp : bool) (w : str) : list word := match w with [] => [] | _ => if sp then [WByte 32] else [] end.
Definition param_words (sp : bool) (p : param) : list word :=
  WByte 59 :: sps sp (fst p) ++ [WStr (fst (snd p)); WByte 61; WStr (snd (snd p))].
Definition params_words (sp : bool) (ps : list param) : list word := flat_map (param_words sp) ps.

Lemma lex_param : forall (tail : str -> list word -> Prop) sp p s l, param_ok p -> stop_tok s -> lexed tail sp s l ->
  lexed tail sp (param_text p ++ s) (param_words sp p ++ l).
Proof.
  intros tail sp (w & n & v) s l (Hw & Hn & Hv) Hs L. cbn [fst snd] in *. unfold param_text, param_words. cbn [fst snd].
  replace ((lit ";" ++ w ++ n ++ lit "=" ++ v) ++ s) with (59 :: w ++ n ++ 61 :: v ++ s)
    by (rewrite <- !app_assoc; reflexivity).
  replace ((WByte 59 :: sps sp w ++ [WStr n; WByte 61; WStr v]) ++ l)
    with (WByte 59 :: sps sp w ++ WStr n :: WByte 61 :: WStr v :: l)
    by (cbn [app]; rewrite <- app_assoc; reflexivity).
  apply lex_sep; [reflexivity|reflexivity|].
  assert (L2 : lexed tail sp (n ++ 61 :: v ++ s) (WStr n :: WByte 61 :: WStr v :: l)).
  { apply lex_tok; [exact Hn|exact (stop_sep 61 nil eq_refl)|]. apply lex_sep; [reflexivity|reflexivity|]. apply lex_tok; assumption. }
  destruct w as [|c w]; [exact L2|]. cbn [sps].
  apply (lx_lws tail sp (c :: w)); [apply lwss_one, lws_plain; [discriminate|exact Hw]|apply token_no_lws; exact Hn|exact L2].
Qed.
Lemma stop_param : forall p s, stop_tok (param_text p ++ s).
Proof. intros p s. apply (stop_sep 59). reflexivity. Qed.
Lemma stop_params : forall ps s, stop_tok s -> stop_tok (concat (map param_text ps) ++ s).
Proof. intros [|p ps] s H; [exact H|]. cbn [map concat]. rewrite <- app_assoc. apply stop_param. Qed.
Lemma lex_paramlist : forall (tail : str -> list word -> Prop) sp ps s l, Forall param_ok ps -> stop_tok s -> lexed tail sp s l ->
  lexed tail sp (concat (map param_text ps) ++ s) (params_words sp ps ++ l).
Proof.
  intros tail sp ps s l F Hs L. induction F as [|p ps Hp F IH]; [exact L|].
  cbn [map concat params_words flat_map]. rewrite <- !app_assoc. apply lex_param; [exact Hp|apply stop_params; exact Hs|exact IH].
Qed.
Lemma one_param : forall sp allsp p l, param_ok p ->
  one_parameter allsp false None (param_words sp p ++ l) = Some (u_lower (fst (snd p)), fst (snd p), snd (snd p), l).
Proof.
  intros sp allsp (w & n & v) l (Hw & Hn & Hv). cbn [fst snd] in *. unfold param_words. cbn [fst snd]. unfold one_parameter.
  change (parse_sp ((WByte 59 :: ?x) ++ l)) with (WByte 59 :: x ++ l).
  change (require_separator 59 (WByte 59 :: ?x)) with (Ok x). cbv iota beta.
  assert (E2 : parse_sp ((sps sp w ++ [WStr n; WByte 61; WStr v]) ++ l) = WStr n :: WByte 61 :: WStr v :: l)
    by (destruct w; [reflexivity|]; destruct sp; reflexivity).
  rewrite E2, (require_token_ok n _ Hn). cbv iota beta zeta.
  replace (if allsp then parse_sp (WByte 61 :: WStr v :: l) else WByte 61 :: WStr v :: l) with (WByte 61 :: WStr v :: l)
    by (destruct allsp; reflexivity).
  change (require_separator 61 (WByte 61 :: ?x)) with (Ok x). cbv iota beta.
  replace (if allsp then parse_sp (WStr v :: l) else WStr v :: l) with (WStr v :: l) by (destruct allsp; reflexivity).
  rewrite (parse_token_ok v l Hv). reflexivity.
Qed.
Lemma params_loop : forall sp allsp ps d f, Forall param_ok ps -> (length ps < f)%nat ->
  exists d', parameters_loop f allsp false None d (params_words sp ps) = (d', []).
Proof.
  intros sp allsp ps. induction ps as [|p ps IH]; intros d f F Hf; (destruct f as [|f]; [cbn in Hf; lia|]); cbn [parameters_loop].
  - exists d. reflexivity.
  - inversion F; subst. cbn [params_words flat_map]. rewrite one_param by assumption. cbv iota beta.
    apply IH; [assumption|cbn in Hf; lia].
Qed.
Lemma param_len : forall sp p, (2 <= length (param_words sp p))%nat.
Proof. intros sp p. unfold param_words. cbn [length]. rewrite app_length. cbn [length]. lia. Qed.
Lemma params_len : forall sp ps, (length ps <= length (params_words sp ps))%nat.
Proof.
  intros sp ps. induction ps as [|p ps IH]; [cbn; lia|]. change (params_words sp (p :: ps)) with (param_words sp p ++ params_words sp ps).
  rewrite app_length. cbn [length]. pose proof (param_len sp p). lia.
Qed.
Lemma parse_params : forall sp allsp ps, Forall param_ok ps ->
  exists d, parse_parameters allsp false None [] (params_words sp ps) = (d, []).
Proof.
  intros sp allsp ps F. unfold parse_parameters. destruct ps as [|p ps].
  - exists []. reflexivity.
  - change (parse_sp (params_words sp (p :: ps))) with (params_words sp (p :: ps)).
    apply params_loop; [exact F|]. change (params_words sp (p :: ps)) with (param_words sp p ++ params_words sp ps).
    rewrite app_length. pose proof (params_len sp ps). pose proof (param_len sp p). cbn [length]. lia.
Qed.

(** ** chunk sizes *)
Lemma hexv_hex : forall c v, hex_digit c v -> is_hex c = true /\ hexv c = v /\ tok c /\ 0 <= v < 16.
Proof.
  intros c v H. assert (V : 0 <= v < 16) by (destruct H as [[? ?]|[[? ?]|[? ?]]]; lia).
  assert (X : is_hex c = true /\ hexv c = v).
  { split.
    - unfold is_hex, is_digit. rewrite !orb_true_iff, !andb_true_iff, !Z.leb_le. destruct H as [[? ->]|[[? ->]|[? ->]]]; lia.
    - unfold hexv. destruct (Z.leb_spec c 57), (Z.leb_spec c 70); destruct H as [[? ->]|[[? ->]|[? ->]]]; lia. }
  destruct X. repeat split; try assumption; try lia.
  - intros [?|?]; destruct H as [[? ?]|[[? ?]|[? ?]]]; lia.
  - intros [Y|Y]; [|destruct H as [[? ?]|[[? ?]|[? ?]]]; lia]. cbn in Y.
    repeat (destruct Y as [Y|Y]; [subst c; destruct H as [[? ?]|[[? ?]|[? ?]]]; lia|]). exact Y.
Qed.
Lemma hex_num : forall h n, hex_number h n -> h <> [] /\ Forall (fun c => is_hex c = true) h /\ Forall tok h /\ hexadecimal h = n /\ 0 <= n.
Proof.
  induction 1 as [c v H|s n c v H (I1 & I2 & I3 & I4 & I5) D].
  - apply hexv_hex in H as (A & B & C & E). repeat split; try (constructor; [assumption|constructor]); try discriminate; try lia.
    cbn [hexadecimal length]. rewrite B. change (16 ^ Z.of_nat 0) with 1. lia.
  - apply hexv_hex in D as (A & B & C & E). repeat split.
    + destruct s; discriminate.
    + apply Forall_app. auto.
    + apply Forall_app. auto.
    + rewrite hexadecimal_app, I4. cbn [hexadecimal length]. rewrite B.
      change (16 ^ Z.of_nat 1) with 16. change (16 ^ Z.of_nat 0) with 1. lia.
    + lia.
Qed.
Lemma chunk_line : forall l n, size_line l n -> exists d, chunk_from_str l = Ok (mkchunk n d).
Proof.
  intros l n (h & exts & H & F & ->). destruct (hex_num h n H) as (H1 & H2 & H3 & H4 & H5).
  unfold chunk_from_str.
  assert (W : words_of (h ++ concat (map param_text exts)) true = Ok (WStr h :: params_words false exts)).
  { apply words_ok. cbn [negb]. pose proof (lex_paramlist ending false exts [] [] F I (lex_end false)) as L. rewrite !app_nil_r in L.
    apply lex_tok; [split; assumption| |exact L]. pose proof (stop_params exts [] I) as S. rewrite app_nil_r in S. exact S. }
  rewrite W. cbn [rbind]. unfold require_chunk. rewrite parse_sp_str. unfold require_hexinteger, parse_hexinteger.
  assert (X : is_hexdigits h = true).
  { unfold is_hexdigits, all_of. destruct h; [congruence|]. apply forallb_forall. rewrite Forall_forall in H2. exact H2. }
  rewrite X. cbn [rbind]. destruct (parse_params false true exts F) as (d & E). rewrite E. cbn [rbind require_end]. rewrite H4.
  exists d. reflexivity.
Qed.
Lemma size_nocrlf_tok : forall p, param_ok p -> ~ In 13 (param_text p).
Proof.
  intros (w & n & v) (Hw & Hn & Hv). cbn [fst snd] in *. unfold param_text. cbn [fst snd].
  assert (T : forall t, token t -> ~ In 13 t).
  { intros t [_ F] X. rewrite Forall_forall in F. apply F in X. destruct X as [X _]. apply X. left. lia. }
  intros X. change (lit ";") with [59] in X. change (lit "=") with [61] in X. repeat rewrite in_app_iff in X.
  destruct X as [[X|[]]|[X|[X|[[X|[]]|X]]]]; try lia.
  - rewrite Forall_forall in Hw. apply Hw in X. destruct X; lia.
  - exact (T n Hn X).
  - exact (T v Hv X).
Qed.
Lemma not_in_no_crlf : forall s, ~ In 13 s -> no_crlf s.
Proof. intros s H a b E. apply H. rewrite E. apply in_or_app. right. left. reflexivity. Qed.
Lemma size_line_ok : forall l n, size_line l n -> no_crlf l /\ l <> [] /\ 0 <= n.
Proof.
  intros l n (h & exts & H & F & ->). destruct (hex_num h n H) as (H1 & H2 & H3 & H4 & H5). split; [|split; [destruct h; [congruence|discriminate]|exact H5]].
  apply not_in_no_crlf. intros X. apply in_app_or in X as [X|X].
  - rewrite Forall_forall in H3. apply H3 in X. destruct X as [X _]. apply X. left. lia.
  - apply in_concat in X as (y & Y & X). apply in_map_iff in Y as (p & <- & Y). rewrite Forall_forall in F. apply F in Y.
    exact (size_nocrlf_tok p Y X).
Qed.

(** ** one token *)
Lemma words_token : forall t ig, token t -> words_of t ig = Ok [WStr t].
Proof.
  intros t ig T. apply words_ok. rewrite <- (app_nil_r t) at 1. apply lex_tok; [exact T|exact I|apply lex_end].
Qed.
Lemma te_chunked : forall te, lower te = lit "chunked" -> te_list_from_str te = Ok [mkte (lit "chunked") []].
Proof.
  intros te H.
  assert (T : token te).
  { split; [destruct te; [discriminate|discriminate]|]. rewrite Forall_forall. intros c Hc.
    assert (X : In (to_lower c) (lit "chunked")) by (rewrite <- H; unfold lower; apply in_map; exact Hc).
    apply is_tok_tok. unfold to_lower in X. cbn in X.
    destruct ((65 <=? c) && (c <=? 90)) eqn:E.
    - apply andb_true_iff in E as [E1 E2]. b2p.
      repeat (destruct X as [X|X]; [assert (c = 67 \/ c = 72 \/ c = 85 \/ c = 78 \/ c = 75 \/ c = 69 \/ c = 68) as Y by lia; repeat (destruct Y as [->|Y]; [reflexivity|]); subst; reflexivity|]). contradiction.
    - repeat (destruct X as [X|X]; [subst c; reflexivity|]). contradiction. }
  unfold te_list_from_str. rewrite (words_token te true T). cbn [rbind]. rewrite parse_sp_str. cbn [length te_list_loop parse_separator].
  unfold require_transfer_encoding. rewrite parse_sp_str, (require_token_ok te _ T). cbn [rbind].
  rewrite lower_eq, H. reflexivity.
Qed.

(** ** lists of tokens *)
Fixpoint comma_words (l : list str) : list word :=
  match l with [] => [] | [x] => [WStr x] | x :: r => WStr x :: WByte 44 :: comma_words r end.
Lemma commas_cons : forall a b l, commas (a :: b :: l) = a ++ lit ", " ++ commas (b :: l). Proof. reflexivity. Qed.
Lemma joinb_commas : forall l, joinb (lit ", ") l = commas l.
Proof. induction l as [|a [|b l] IH]; try reflexivity. rewrite commas_cons, <- IH. reflexivity. Qed.
Lemma commas_head : forall a l s, token a -> no_lws (commas (a :: l) ++ s).
Proof. intros a [|b l] s T; [apply token_no_lws; exact T|]. rewrite commas_cons, <- app_assoc. apply token_no_lws. exact T. Qed.
Lemma comma_lex : forall l, Forall token l -> lexed ending false (commas l) (comma_words l).
Proof.
  induction 1 as [|a l T F IH]; [apply lex_end|]. destruct l as [|b l].
  - rewrite <- (app_nil_r (commas [a])). apply (lex_tok ending false a [] []); [exact T|exact I|apply lex_end].
  - rewrite commas_cons. change (comma_words (a :: b :: l)) with (WStr a :: WByte 44 :: comma_words (b :: l)).
    apply lex_tok; [exact T|exact (stop_sep 44 nil eq_refl)|]. change (lit ", " ++ commas (b :: l)) with (44 :: 32 :: commas (b :: l)).
    apply lex_sep; [reflexivity|reflexivity|]. inversion F; subst. apply (lex_sp ending false (commas (b :: l))); [|exact IH].
    rewrite <- (app_nil_r (commas (b :: l))). apply commas_head. assumption.
Qed.
Lemma tokenlist_ok : forall l, Forall ascii_tok l -> tokenlist (comma_words l) = Ok l.
Proof.
  assert (X : forall a r, ascii_tok a -> tokenlist (WStr a :: r) = let! l := tokenlist r in Ok (a :: l)).
  { intros a r [[Hn T] A]. destruct a as [|c t]; [congruence|]. cbn [tokenlist].
    assert (E : is_separator c = false).
    { inversion T; subst. apply not_true_iff_false. intros Y. apply is_sep_sep in Y. destruct H1 as [_ H1]. contradiction. }
    rewrite E, (ascii_ok _ A). reflexivity. }
  induction 1 as [|a l Ha F IH]; [reflexivity|]. destruct l as [|b l]; [cbn [comma_words]; rewrite (X a _ Ha); reflexivity|].
  change (comma_words (a :: b :: l)) with (WStr a :: WByte 44 :: comma_words (b :: l)). rewrite (X a _ Ha).
  change (tokenlist (WByte 44 :: comma_words (b :: l))) with (tokenlist (comma_words (b :: l))). rewrite IH. reflexivity.
Qed.
Lemma tokens_ok : forall l, Forall ascii_tok l -> exists w, words_of (commas l) true = Ok w /\ tokenlist w = Ok l.
Proof.
  intros l F. exists (comma_words l). split; [|apply tokenlist_ok; exact F]. apply words_ok. apply comma_lex.
  eapply Forall_impl; [|exact F]. intros a [T _]. exact T.
Qed.

(** ** media types *)
Lemma media_ok : forall t st ps, ascii_tok t -> ascii_tok st -> Forall param_ok ps ->
  exists d, mt_from_str (t ++ lit "/" ++ st ++ concat (map param_text ps)) = Ok (mkmt (lower t) (lower st) d).
Proof.
  intros t st ps [T1 A1] [T2 A2] F. unfold mt_from_str.
  pose proof (lex_paramlist ending true ps [] [] F I (lex_end true)) as L. rewrite !app_nil_r in L.
  pose proof (stop_params ps [] I) as S. rewrite app_nil_r in S.
  change (t ++ lit "/" ++ st ++ ?x) with (t ++ 47 :: st ++ x).
  rewrite (words_ok (t ++ 47 :: st ++ concat (map param_text ps)) false (WStr t :: WByte 47 :: WStr st :: params_words true ps)).
  2:{ apply lex_tok; [exact T1|exact (stop_sep 47 nil eq_refl)|]. apply lex_sep; [reflexivity|reflexivity|]. apply lex_tok; assumption. }
  cbn [rbind]. unfold require_media_type. rewrite parse_sp_str, (require_token_ok t _ T1). cbn [rbind].
  rewrite (ascii_ok (b_lower t)) by (apply b_lower_A; exact A1). cbn [rbind].
  change (require_separator 47 (WByte 47 :: ?x)) with (Ok x). cbn [rbind].
  rewrite (require_token_ok st _ T2). cbn [rbind]. rewrite (ascii_ok (b_lower st)) by (apply b_lower_A; exact A2). cbn [rbind].
  replace (parse_sp (params_words true ps)) with (params_words true ps) by (destruct ps; reflexivity).
  destruct (parse_params true false ps F) as (d & E). rewrite E. cbn [rbind require_end]. exists d. reflexivity.
Qed.

(** ** numbers *)
Lemma int_digits_ok : forall d acc prev, Forall dec_digit d -> (d <> [] \/ prev = true) ->
  int_digits prev acc d = Some (acc * 10 ^ Z.of_nat (length d) + decimal d).
Proof.
  induction d as [|c d IH]; intros acc prev F H.
  - destruct H as [H| ->]; [congruence|]. cbn [int_digits decimal length]. change (10 ^ Z.of_nat 0) with 1. f_equal. lia.
  - inversion F as [|? ? D F']; subst. cbn [int_digits]. assert (E : is_digit c = true) by (apply is_dec_ok in D; exact D). rewrite E.
    rewrite IH by auto. cbn [decimal length]. rewrite Nat2Z.inj_succ, Z.pow_succ_r by lia. f_equal. ring.
Qed.
Lemma blstrip_id : forall c r, is_bspace c = false -> blstrip (c :: r) = c :: r.
Proof. intros c r H. cbn [blstrip]. rewrite H. reflexivity. Qed.
Lemma bstrip_id : forall s, (forall c r, s = c :: r -> is_bspace c = false) -> (forall c r, s = r ++ [c] -> is_bspace c = false) -> bstrip s = s.
Proof.
  intros s H1 H2. unfold bstrip.
  assert (E : blstrip s = s) by (destruct s as [|c s]; [reflexivity|]; apply blstrip_id; apply (H1 c s eq_refl)). rewrite E.
  destruct (rev s) as [|c r] eqn:R.
  - apply (f_equal (@rev Z)) in R. rewrite rev_involutive in R. subst. reflexivity.
  - apply (f_equal (@rev Z)) in R. rewrite rev_involutive in R. cbn [rev] in R. rewrite (blstrip_id c r) by (apply (H2 c (rev r) R)).
    rewrite R. reflexivity.
Qed.
Lemma dec_nospace : forall c, dec_digit c -> is_bspace c = false.
Proof. intros c [H1 H2]. unfold is_bspace, zin. cbn [existsb]. repeat (apply orb_false_iff; split); try reflexivity; apply Z.eqb_neq; lia. Qed.
Lemma bstrip_digits : forall d, Forall dec_digit d -> bstrip d = d.
Proof.
  intros d F. rewrite Forall_forall in F. apply bstrip_id.
  - intros c r ->. apply dec_nospace, F. left. reflexivity.
  - intros c r ->. apply dec_nospace, F. apply in_or_app. right. left. reflexivity.
Qed.
Lemma py_int_digits : forall d, d <> [] -> Forall dec_digit d -> py_int d = Ok (decimal d).
Proof.
  intros d Hn F. unfold py_int. rewrite bstrip_digits by exact F. pose proof (int_digits_ok d 0 false F (or_introl Hn)) as E.
  destruct d as [|c d]; [congruence|]. inversion F as [|? ? [D1 D2] F']; subst.
  replace (match c :: d with 45 :: r => option_map Z.opp (int_digits false 0 r) | 43 :: r => int_digits false 0 r | r => int_digits false 0 r end)
    with (int_digits false 0 (c :: d)).
  - rewrite E. reflexivity.
  - do 6 (destruct c as [|c|c]; try reflexivity; try lia; try (destruct c as [c|c|]; try reflexivity; try lia)).
Qed.
