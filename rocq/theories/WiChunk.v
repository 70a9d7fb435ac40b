From Verif Require Import PagingModel WiModel WiSpec WiProofs Py Num HttpModel HttpSpec HttpLex HttpParamModel HttpParamMain HttpParamProofs HttpProps HttpProofs MsgModel MsgSpec MsgLex.

(** where a ChunkedReader may be, with [b] still to be given *)
Definition chunk_state (s : cr) (b : str) (trailer : list field) : Prop :=
  (exists w more, s = CR (w ++ more) (-1) false /\ chunked b trailer w) \/
  (exists w more, s = CR (crlf ++ w ++ more) 0 false /\ chunked b trailer w) \/
  (exists d b' w more, s = CR (d ++ crlf ++ w ++ more) (len d) false /\ d <> [] /\ b = d ++ b' /\ chunked b' trailer w) \/
  (exists r, s = CR r 0 true /\ b = []).

Lemma src_line_app : forall l r, ~ In 10 l -> src_line (l ++ 10 :: r) = (l ++ [10], r).
Proof.
  induction l as [|c l IH]; intros r H; cbn [src_line app].
  - reflexivity.
  - destruct (Z.eqb_spec c 10); [exfalso; apply H; left; auto|]. rewrite IH; [reflexivity|]. intros X. apply H. right. exact X.
Qed.
Lemma src_line_len : forall s a r, src_line s = (a, r) -> s = a ++ r.
Proof.
  induction s as [|c s IH]; intros a r H; cbn [src_line] in H; [injection H as <- <-; reflexivity|].
  destruct (c =? 10); [injection H as <- <-; reflexivity|]. destruct (src_line s) as [a' r'] eqn:E. injection H as <- <-.
  cbn [app]. f_equal. auto.
Qed.
Lemma skip_trailer_ok : forall f s, (length s < f)%nat -> exists r, skip_trailer f s = Ok r.
Proof.
  induction f as [|f IH]; intros s L; [lia|]. cbn [skip_trailer]. destruct (src_line s) as [a r] eqn:E.
  apply src_line_len in E. destruct (bstrip a) eqn:St; [eauto|]. apply IH. subst s.
  destruct a; [discriminate|]. rewrite app_length in L. cbn [length] in L. lia.
Qed.

(** ** the line with the size *)
Lemma tok_nospace : forall c, tok c -> is_bspace c = false.
Proof.
  intros c [H1 H2]. unfold is_bspace, zin. cbn [existsb]. repeat (apply orb_false_iff; split); try reflexivity; apply Z.eqb_neq; intros ->.
  - apply H2. left. unfold lit. cbn. tauto.
  - apply H1. left. lia.
  - apply H1. left. lia.
  - apply H1. left. lia.
  - apply H1. left. lia.
  - apply H1. left. lia.
Qed.
Lemma bstrip_crlf : forall c m, is_bspace c = false -> (forall r d, c :: m = r ++ [d] -> is_bspace d = false) ->
  bstrip ((c :: m) ++ crlf) = c :: m.
Proof.
  intros c m H H2. unfold bstrip. change ((c :: m) ++ crlf) with (c :: (m ++ crlf)). rewrite blstrip_id by exact H.
  change (c :: m ++ crlf) with ((c :: m) ++ crlf). rewrite rev_app_distr. change (rev crlf) with [10; 13]. cbn [app].
  change (blstrip (10 :: 13 :: rev (c :: m))) with (blstrip (rev (c :: m))).
  destruct (rev (c :: m)) as [|d r] eqn:R; [apply (f_equal (@length Z)) in R; rewrite rev_length in R; discriminate|].
  assert (E : c :: m = rev r ++ [d]) by (rewrite <- (rev_involutive (c :: m)), R; reflexivity).
  rewrite blstrip_id by (apply (H2 _ _ E)). cbn [rev]. symmetry. exact E.
Qed.
Lemma last_tok : forall t r d, token t -> t = r ++ [d] -> tok d.
Proof. intros t r d [_ F] ->. apply Forall_app in F as [_ F]. inversion F. assumption. Qed.
Lemma last_app : forall (a b r : str) d, b <> [] -> a ++ b = r ++ [d] -> exists r', b = r' ++ [d].
Proof.
  intros a b r d N E. destruct (exists_last N) as (b' & x & ->). rewrite app_assoc in E. apply app_inj_tail in E as [_ ->]. eauto.
Qed.
Lemma params_last : forall exts r d, Forall param_ok exts -> concat (map param_text exts) = r ++ [d] -> tok d.
Proof.
  induction exts as [|p exts IH]; intros r d F E; [destruct r; discriminate|]. inversion F as [|? ? (_ & _ & V) F']; subst. cbn [map concat] in E.
  destruct (concat (map param_text exts)) as [|y m] eqn:M.
  - rewrite app_nil_r in E. unfold param_text in E. rewrite !app_assoc in E.
    assert (N : snd (snd p) <> []) by apply V. destruct (last_app _ _ _ _ N E) as (r' & E'). exact (last_tok _ _ _ V E').
  - assert (N : y :: m <> []) by discriminate. destruct (last_app _ _ _ _ N E) as (r' & E'). exact (IH r' d F' E').
Qed.

Lemma hexv_val : forall c v, hex_digit c v -> hex_val c = Some v.
Proof.
  intros c v H. unfold hex_val.
  destruct (Z.leb_spec 48 c), (Z.leb_spec c 57), (Z.leb_spec 65 c), (Z.leb_spec c 70), (Z.leb_spec 97 c), (Z.leb_spec c 102);
    cbn [andb]; destruct H as [[? ->]|[[? ->]|[? ->]]]; try lia; reflexivity.
Qed.
Lemma int_digits_snoc : forall s c v acc n, Forall (fun c => exists v, hex_digit c v) s -> hex_digit c v ->
  PagingModel.int_digits s acc = Some n -> PagingModel.int_digits (s ++ [c]) acc = Some (16 * n + v).
Proof.
  induction s as [|x s IH]; intros c v acc n F H E; cbn [app PagingModel.int_digits] in *.
  - injection E as ->. rewrite (hexv_val c v H). reflexivity.
  - inversion F as [|? ? (w & D) F']; subst. rewrite (hexv_val x w D) in *. apply IH; assumption.
Qed.
Lemma hex_number_digits : forall h n, hex_number h n -> Forall (fun c => exists v, hex_digit c v) h /\ h <> [] /\
  PagingModel.int_digits h 0 = Some n.
Proof.
  induction 1 as [c v H|s n c v H (I1 & I2 & I3) D].
  - repeat split; [constructor; [eauto|constructor]|discriminate|]. cbn [PagingModel.int_digits]. rewrite (hexv_val c v H). reflexivity.
  - repeat split; [apply Forall_app; split; [exact I1|constructor; [eauto|constructor]]|destruct s; discriminate|].
    apply int_digits_snoc; assumption.
Qed.
Lemma hex_nospace : forall c v, hex_digit c v -> PagingModel.is_space c = false.
Proof.
  intros c v H. unfold PagingModel.is_space. apply orb_false_iff. rewrite !andb_false_iff, !Z.leb_gt. unfold hex_digit in H. lia.
Qed.
Lemma lstrip_hex : forall s, Forall (fun c => exists v, hex_digit c v) s -> PagingModel.lstrip s = s.
Proof. intros [|c s] F; [reflexivity|]. inversion F as [|? ? (v & D) F']; subst. cbn [PagingModel.lstrip]. rewrite (hex_nospace c v D). reflexivity. Qed.
Lemma int16_hex : forall h n, hex_number h n -> int16 h = Some n.
Proof.
  intros h n H. destruct (hex_number_digits h n H) as (F & N & E). unfold int16. rewrite (lstrip_hex h F).
  rewrite (lstrip_hex (rev h)) by (apply Forall_rev; exact F). rewrite rev_involutive.
  assert (U : int_unsigned h = Some n).
  { unfold int_unsigned. destruct h as [|c h]; [congruence|]. inversion F as [|? ? (v & D) F']; subst.
    lazymatch goal with |- match ?y with [] => _ | _ => _ end = _ => assert (X : y = c :: h) end.
    { destruct h as [|x h]; [destruct c as [|p|p]; try reflexivity; repeat (destruct p as [p|p|]; try reflexivity)|].
      inversion F' as [|? ? (v' & D') F'']; subst.
      assert (B : (x =? 120) || (x =? 88) = false) by (apply orb_false_iff; rewrite !Z.eqb_neq; unfold hex_digit in D'; lia).
      rewrite B. destruct c as [|p|p]; try reflexivity; repeat (destruct p as [p|p|]; try reflexivity). }
    rewrite X. cbn [PagingModel.int_digits] in E. rewrite (hexv_val c v D) in *. exact E. }
  destruct h as [|c h]; [congruence|]. inversion F as [|? ? (v & D) F']; subst.
  destruct (Z.eq_dec c 45) as [->|N1]; [exfalso; unfold hex_digit in D; lia|].
  destruct (Z.eq_dec c 43) as [->|N2]; [exfalso; unfold hex_digit in D; lia|].
  destruct c as [|p|p]; try exact U. repeat (destruct p as [p|p|]; try exact U); lia.
Qed.

Lemma size_line_read : forall l n, size_line l n ->
  ~ In 10 l /\ bstrip ((l ++ crlf)) = l /\ exists ws t, words_of l true = Ok ws /\ fst (parse_token ws) = Some t /\ int16 t = Some n.
Proof.
  intros l n (h & exts & H & F & ->). destruct (hex_num h n H) as (H1 & H2 & H3 & H4 & H5).
  assert (T : forall t, token t -> ~ In 10 t).
  { intros t [_ Ft] X. rewrite Forall_forall in Ft. apply Ft in X. destruct X as [X _]. apply X. left. lia. }
  split; [|split].
  - intros X. apply in_app_or in X as [X|X]; [exact (T h (conj H1 H3) X)|].
    apply in_concat in X as (y & Y & X). apply in_map_iff in Y as (p & <- & Y). rewrite Forall_forall in F. apply F in Y.
    destruct p as (w & nm & v). destruct Y as (Hw & Hn & Hv). cbn [fst snd] in *. unfold param_text in X. cbn [fst snd] in X.
    change (lit ";") with [59] in X. change (lit "=") with [61] in X. repeat rewrite in_app_iff in X.
    destruct X as [[X|[]]|[X|[X|[[X|[]]|X]]]]; try lia.
    + rewrite Forall_forall in Hw. apply Hw in X. destruct X; lia.
    + exact (T nm Hn X).
    + exact (T v Hv X).
  - destruct h as [|c h]; [congruence|]. change ((c :: h) ++ concat (map param_text exts)) with (c :: (h ++ concat (map param_text exts))).
    apply bstrip_crlf.
    + inversion H3. apply tok_nospace. assumption.
    + intros r d E. apply tok_nospace. destruct (concat (map param_text exts)) as [|y m] eqn:M.
      * rewrite app_nil_r in E. exact (last_tok _ _ _ (conj H1 H3) E).
      * assert (N : y :: m <> []) by discriminate. change (c :: h ++ y :: m) with ((c :: h) ++ y :: m) in E.
        destruct (last_app _ _ _ _ N E) as (r' & E'). rewrite <- M in E'. exact (params_last _ _ _ F E').
  - exists (WStr h :: params_words false exts), h. split; [|split; [|exact (int16_hex h n H)]].
    + apply words_ok. cbn [negb]. pose proof (lex_paramlist ending false exts [] [] F Logic.I (lex_end false)) as L. rewrite !app_nil_r in L.
      apply lex_tok; [split; assumption| |exact L]. pose proof (stop_params exts [] Logic.I) as S. rewrite app_nil_r in S. exact S.
    + unfold parse_token. destruct h as [|c h]; [congruence|]. inversion H3 as [|? ? Tc _]; subst.
      assert (Es : is_separator c = false) by (destruct (is_separator c) eqn:X; [apply is_sep_sep in X; destruct Tc; contradiction|reflexivity]). rewrite Es. reflexivity.
Qed.

(** ** reading *)
Lemma src_line_crlf : forall l r, ~ In 10 l -> src_line (l ++ crlf ++ r) = (l ++ crlf, r).
Proof.
  intros l r H. replace (l ++ crlf ++ r) with ((l ++ [13]) ++ 10 :: r) by (rewrite <- app_assoc; reflexivity).
  rewrite src_line_app; [rewrite <- app_assoc; reflexivity|]. intros X. apply in_app_or in X as [X|[X|[]]]; [auto|lia].
Qed.
(** a chunk size is read: the last one, or that of a chunk of data *)
Lemma chunksize_ok : forall left w more b tr pre, chunked b tr w -> (left = 0 /\ pre = crlf \/ left = -1 /\ pre = []) ->
  (b = [] /\ exists r, read_chunksize (CR (pre ++ w ++ more) left false) = Ok (CR r 0 true)) \/
  (exists d b' w', d <> [] /\ b = d ++ b' /\ chunked b' tr w' /\
     read_chunksize (CR (pre ++ w ++ more) left false) = Ok (CR (d ++ crlf ++ w' ++ more) (len d) false)).
Proof.
  intros left w more b tr pre H P.
  assert (E : forall s, (if left =? 0 then snd (src_line (pre ++ s)) else pre ++ s) = s).
  { intros s. destruct P as [[-> ->]|[-> ->]]; cbn [Z.eqb]; [|reflexivity].
    pose proof (src_line_crlf [] s (fun x => x)) as X. cbn [app] in X. rewrite X. reflexivity. }
  unfold read_chunksize. cbn [chunk_left src eof]. rewrite E.
  destruct H as [l trailer Hl Ht|l d b trailer w Nd Hl Hw]; destruct (size_line_read _ _ Hl) as (L1 & L2 & ws & t & L3 & L4 & L5).
  - left. split; [reflexivity|]. rewrite <- !app_assoc. rewrite src_line_crlf by exact L1. rewrite L2, L3. cbn [rbind]. rewrite L4, L5. cbn [Z.eqb].
    set (s := concat (map field_text trailer) ++ crlf ++ more). destruct (skip_trailer_ok (S (length s)) s ltac:(lia)) as (r & Hr).
    exists r. rewrite Hr. reflexivity.
  - right. exists d, b, w. split; [exact Nd|]. split; [reflexivity|]. split; [exact Hw|].
    rewrite <- !app_assoc. rewrite src_line_crlf by exact L1. rewrite L2, L3. cbn [rbind]. rewrite L4, L5.
    destruct (Z.eqb_spec (Z.of_nat (length d)) 0); [destruct d; [congruence|cbn [length] in *; lia]|]. reflexivity.
Qed.
Lemma cr_readinto_ok : forall s b tr n, chunk_state s b tr -> 0 <= n ->
  exists d s' b', cr_readinto n s = Ok (d, s') /\ b = d ++ b' /\ len d <= n /\ (d = [] -> n = 0 \/ b = []) /\ chunk_state s' b' tr.
Proof.
  intros s b tr n H N.
  (* reading from the data of a chunk *)
  assert (G : forall d b' w more, d <> [] -> chunked b' tr w -> let q := (if len d <? n then len d else n) in
     exists d1 s' b1, (if zlen (d ++ crlf ++ w ++ more) <? q then Err Unmodelled
        else Ok (ztake q (d ++ crlf ++ w ++ more), CR (zdrop q (d ++ crlf ++ w ++ more)) (len d - q) false)) = Ok (d1, s') /\
       d ++ b' = d1 ++ b1 /\ len d1 <= n /\ (d1 = [] -> n = 0 \/ d ++ b' = []) /\ chunk_state s' b1 tr).
  { intros d b' w more Nd Hw q. assert (Q : 0 <= q <= len d /\ q <= n /\ (q = 0 -> n = 0)).
    { subst q. assert (0 < len d) by (destruct d; [congruence|unfold len; cbn [length]; lia]). destruct (Z.ltb_spec (len d) n); lia. }
    destruct Q as (Q1 & Q2 & Q3). change zlen with len.
    assert (Lq : len d <= len (d ++ crlf ++ w ++ more)) by (rewrite WiProofs.len_app; pose proof (len_nn (crlf ++ w ++ more)); lia).
    destruct (Z.ltb_spec (len (d ++ crlf ++ w ++ more)) q); [lia|].
    assert (T : ztake q (d ++ crlf ++ w ++ more) = ztake q d).
    { unfold ztake. rewrite firstn_app. unfold len in Q1. replace (Z.to_nat q - length d)%nat with 0%nat by lia.
      cbn [firstn]. apply app_nil_r. }
    assert (D : zdrop q (d ++ crlf ++ w ++ more) = zdrop q d ++ crlf ++ w ++ more).
    { unfold zdrop. rewrite skipn_app. unfold len in Q1. replace (Z.to_nat q - length d)%nat with 0%nat by lia. reflexivity. }
    rewrite T, D. eexists _, _, (zdrop q d ++ b'). split; [reflexivity|].
    split; [rewrite app_assoc, <- ztake_drop; reflexivity|]. assert (Lt : len (ztake q d) = q) by (rewrite len_ztake; lia).
    split; [lia|]. split; [intros Z; rewrite Z in Lt; left; apply Q3; rewrite <- Lt; reflexivity|].
    assert (Ld : len (zdrop q d) = len d - q) by (unfold len, zdrop in *; rewrite skipn_length; lia).
    rewrite <- Ld. destruct (zdrop q d) as [|y m] eqn:Z.
    - right. left. exists w, more. split; [reflexivity|exact Hw].
    - right. right. left. exists (y :: m), b', w, more. repeat split; auto. discriminate. }
  (* a chunk size first *)
  assert (K : forall left w more pre, chunked b tr w -> (left = 0 /\ pre = crlf \/ left = -1 /\ pre = []) -> s = CR (pre ++ w ++ more) left false ->
    exists d s' b', cr_readinto n s = Ok (d, s') /\ b = d ++ b' /\ len d <= n /\ (d = [] -> n = 0 \/ b = []) /\ chunk_state s' b' tr).
  { intros left w more pre Hw P ->. unfold cr_readinto. cbn [chunk_left eof].
    assert (X : (left <=? 0) && negb false = true) by (destruct P as [[-> _]|[-> _]]; reflexivity). rewrite X.
    destruct (chunksize_ok left w more b tr pre Hw P) as [(-> & r & E)|(d & b' & w' & Nd & -> & Hw' & E)]; rewrite E; cbn [rbind chunk_left eof src].
    - cbn [Z.leb andb]. exists [], (CR r 0 true), []. repeat split; auto. right. right. right. eauto.
    - rewrite andb_false_r. apply (G d b' w' more Nd Hw'). }
  destruct H as [(w & more & -> & H)|[(w & more & -> & H)|[(d & b' & w & more & -> & Nd & -> & H)|(r & -> & ->)]]].
  - apply (K (-1) w more []); auto.
  - apply (K 0 w more crlf); auto.
  - unfold cr_readinto. cbn [chunk_left eof src]. assert (0 < len d) by (destruct d; [congruence|unfold len; cbn [length]; lia]).
    destruct (Z.leb_spec (len d) 0); [lia|]. cbn [andb rbind chunk_left eof src].
    destruct (Z.leb_spec (len d) 0); [lia|]. cbn [andb]. apply (G d b' w more Nd H).
  - unfold cr_readinto. cbn [chunk_left eof src Z.leb negb andb rbind]. exists [], (CR r 0 true), []. repeat split; auto. right. right. right. eauto.
Qed.
Lemma cr_read_ok : forall s b tr n, chunk_state s b tr -> 0 <= n ->
  exists d s' b', cr_read n s = Ok (d, s') /\ b = d ++ b' /\ len d <= n /\ (d = [] -> n = 0 \/ b = []) /\ chunk_state s' b' tr.
Proof. intros s b tr n H N. unfold cr_read. destruct (Z.ltb_spec n 0); [lia|]. apply cr_readinto_ok; assumption. Qed.
