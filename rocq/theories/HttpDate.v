(** Proofs for C39: HTTP dates. *)
From Verif Require Import Py Num UriModel UriRel HttpModel HttpSpec HttpProofs HttpLex HttpParamModel HttpParamSpec HttpProps HttpParamProofs HttpParamMain.
From Verif Require Import IsoModel IsoSpec IsoProofs IsoMain IsoWeek IsoTimeModel IsoTimeSpec IsoTime IsoStr IsoTimeStr.
Ltac Zify.zify_post_hook ::= Z.to_euclidean_division_equations.
#[local] Arguments nth_day : simpl never.

Lemma d1_digits : forall n, 0 <= n <= 9 -> d1 n <> [] /\ Forall dec_digit (d1 n) /\ decimal (d1 n) = n.
Proof. intros n H. split; [discriminate|]. split; [repeat constructor; lia|]. cbn [d1 decimal length]. change (10 ^ Z.of_nat 0) with 1. lia. Qed.
Lemma d2_digits : forall n, 0 <= n <= 99 -> d2 n <> [] /\ Forall dec_digit (d2 n) /\ decimal (d2 n) = n.
Proof.
  intros n H. split; [discriminate|]. split; [repeat constructor; lia|]. unfold d2. cbn [decimal length].
  change (10 ^ Z.of_nat 0) with 1. change (10 ^ Z.of_nat 1) with 10. lia.
Qed.
Lemma d4_digits : forall y, 0 <= y <= 9999 -> d4 y <> [] /\ Forall dec_digit (d4 y) /\ decimal (d4 y) = y.
Proof.
  intros y H. split; [discriminate|]. destruct (d2_digits (y / 100)) as (_ & F1 & E1); [lia|]. destruct (d2_digits (y mod 100)) as (_ & F2 & E2); [lia|].
  unfold d4. split; [apply Forall_app; auto|]. rewrite decimal_app, E1, E2. change (length (d2 (y mod 100))) with 2%nat. change (10 ^ Z.of_nat 2) with 100. lia.
Qed.
Lemma pad4 : forall y, 0 <= y <= 9999 -> dec_pad 4 y = d4 y.
Proof.
  intros y H. destruct (dec_pad_spec 4 y ltac:(lia)) as (F & D & _ & _). destruct (d4_digits y H) as (_ & F2 & D2).
  assert (L : length (dec_pad 4 y) = 4%nat) by (apply dec_pad_length; [cbn; lia|lia]).
  apply decimal_inj; auto. congruence.
Qed.
Lemma int_word : forall t r, t <> [] -> Forall dec_digit t -> require_integer (WStr t :: r) = Ok (decimal t, r).
Proof. intros t r H1 H2. unfold require_integer, HttpParamModel.parse_integer. rewrite is_digits_ok by assumption. reflexivity. Qed.

Definition okname (s : str) : Prop := token s.
Lemma day_name : forall i, (i < 7)%nat -> exists s, nth i day_names [] = s /\ nth_error wkday i = Some s /\ token s /\ wkday_table (b_lower s) = Some (Z.of_nat i) /\ is_digits s = false.
Proof.
  intros i H. do 7 (destruct i as [|i]; [eexists; split; [reflexivity|]; split; [reflexivity|]; split; [apply lit_token; [discriminate|reflexivity]|split; reflexivity]|]). lia.
Qed.
Lemma long_day_name : forall i, (i < 7)%nat -> exists s, nth i long_day_names [] = s /\ token s /\ wkday_table (b_lower s) = Some (Z.of_nat i).
Proof.
  intros i H. do 7 (destruct i as [|i]; [eexists; split; [reflexivity|]; split; [apply lit_token; [discriminate|reflexivity]|reflexivity]|]). lia.
Qed.
Lemma month_name_ok : forall m, 1 <= m <= 12 -> nth_name month (m - 1) = Ok (month_name m) /\ ascii_token (month_name m)
  /\ month_table (b_lower (month_name m)) = Some (m - 1) /\ is_digits (month_name m) = false /\ ~ In 45 (month_name m).
Proof.
  intros m H. assert (D : m = 1 \/ m = 2 \/ m = 3 \/ m = 4 \/ m = 5 \/ m = 6 \/ m = 7 \/ m = 8 \/ m = 9 \/ m = 10 \/ m = 11 \/ m = 12) by lia.
  repeat (destruct D as [->|D]); [..|subst m]; (split; [reflexivity|]); (split; [split; [apply lit_token; [discriminate|reflexivity]|apply Forall_forall; intros c Hc; vm_compute in Hc; repeat destruct Hc as [Hc|Hc]; subst; try lia; contradiction]|]);
    (split; [reflexivity|]); (split; [reflexivity|]); intros X; vm_compute in X; repeat destruct X as [X|X]; try discriminate X; exact X.
Qed.

Lemma lex_word_sp : forall (tail : str -> list word -> Prop) t s l, token t -> no_lws s -> lexed tail false s l -> lexed tail false (t ++ 32 :: s) (WStr t :: l).
Proof.
  intros tail t s l T N L. apply lex_tok; [exact T|exact (stop_sep 32 nil eq_refl)|]. apply (lex_sp tail false); assumption.
Qed.
Lemma tok_digits : forall t, t <> [] -> Forall dec_digit t -> token t.
Proof. intros t H1 H2. apply (digits_token t H1 H2). Qed.

(** the clock and what is after it *)
Definition clock_words (h mi s : Z) (last : str) : list word :=
  [WStr (d2 h); WByte 58; WStr (d2 mi); WByte 58; WStr (d2 s); WStr last].
Lemma clock_lex : forall h mi s last, clock_ok h mi s -> token last ->
  lexed ending false (clock h mi s ++ 32 :: last) (clock_words h mi s last).
Proof.
  intros h mi s last (H1 & H2 & H3) T. unfold clock. rewrite <- !app_assoc. change (lit ":" ++ ?x) with (58 :: x).
  destruct (d2_digits h) as (A1 & A2 & _); [lia|]. destruct (d2_digits mi) as (B1 & B2 & _); [lia|]. destruct (d2_digits s) as (C1 & C2 & _); [lia|].
  change (d2 h ++ lit ":" ++ d2 mi ++ lit ":" ++ d2 s ++ 32 :: last) with (d2 h ++ 58 :: d2 mi ++ 58 :: d2 s ++ 32 :: last).
  apply lex_tok; [apply tok_digits; assumption|exact (stop_sep 58 nil eq_refl)|]. apply lex_sep; [reflexivity|reflexivity|].
  apply lex_tok; [apply tok_digits; assumption|exact (stop_sep 58 nil eq_refl)|]. apply lex_sep; [reflexivity|reflexivity|].
  apply lex_word_sp; [apply tok_digits; assumption| |].
  - rewrite <- (app_nil_r last). apply token_no_lws. exact T.
  - rewrite <- (app_nil_r last) at 1. apply lex_tok; [exact T|exact I|apply lex_end].
Qed.
Lemma clock_no_lws : forall h mi s r, clock_ok h mi s -> no_lws (clock h mi s ++ r).
Proof.
  intros h mi s r (H1 & _). unfold clock. rewrite <- app_assoc. apply token_no_lws. apply tok_digits; apply d2_digits; lia.
Qed.
Lemma utc_wf : forall h mi s, clock_ok h mi s -> wf (utc h mi s) /\ new_time (Some h) (Some mi) (Some s) (Some 0) None None = Ok (utc h mi s).
Proof.
  intros h mi s (H1 & H2 & H3).
  assert (Wz : zone_wf (Some 0) (Some 0)) by (exists 0; psplit; auto; lia).
  assert (Wh : hms_wf h (Some mi) (Some s)) by (unfold hms_wf; cbn [the]; psplit; auto; try lia; discriminate).
  split; [split; assumption|]. unfold new_time. cbn [is_some negb andb]. unfold zone_offset. cbn [Z.eqb rbind].
  destruct (check_hms h (Some mi) (Some s) (Some 0) (Some 0) Wz ltac:(discriminate)) as [[_ B]|[B _]]; [exact B|contradiction].
Qed.
Lemma dow_ok : forall n, exists a b c e, get_week_day (cal (nth_day n)) = Ok (a, b, c, e, Some (Z.of_nat n mod 7 + 1)).
Proof.
  intros n. destruct (get_week_spec n) as (Y & w & wd & [I _] & E). rewrite E. unfold IsoSpec.weekday in I. subst wd. do 4 eexists. reflexivity.
Qed.

(** after the first word and the day, month and year *)
Definition finish (dayofweek : Z) (century year : option Z) (month day : Z) (ws : list word) : res (timepoint * list word) :=
  let! (hour, ws) := require_integer (parse_sp ws) in
    let! ws := require_separator 58 ws in
    let! (minute, ws) := require_integer ws in
    let! ws := require_separator 58 ws in
    let! (second, ws) := require_integer ws in
    let ws := parse_sp ws in
    let! (century, year, ws) :=
      match year with
      | None => let! (y, ws) := require_integer ws in Ok (Some (y / 100), y mod 100, ws)
      | Some y =>
        let! (t, ws) := require_token ws in
        if negb (str_eqb (b_upper t) (lit "UTC")) && negb (str_eqb (b_upper t) (lit "GMT")) then Err BadSyntax
        else Ok (century, y, ws)
      end in
    let century := match century with Some c => c | None => if year <? 90 then 20 else 19 end in
    let! d := date_calendar None (Some century) (Some year) (Some (month + 1)) (Some day) in
    let! t := new_time (Some hour) (Some minute) (Some second) (Some 0) None None in
    let! tp := new_timepoint d t in
    let! (_, _, _, _, dow) := get_week_day (tp_date tp) in
    if oeq dow (Some (dayofweek + 1)) then Ok (tp, ws) else Err BadSyntax.
Lemma fulldate_eq : forall ws, require_fulldate ws =
  let! (t, ws) := require_token (parse_sp ws) in
  match wkday_table (b_lower t) with
  | None => Err BadSyntax
  | Some dayofweek =>
    let! (century, year, month, day, ws) := require_dayfirst ws in finish dayofweek century year month day ws
  end.
Proof. reflexivity. Qed.

Lemma finish_ok : forall n y m d h mi s cc yy last, Z.of_nat n < max_day -> nth_day n = (y, m, d) -> clock_ok h mi s ->
  (match yy with
   | Some v => last = lit "GMT" /\ v = y mod 100 /\ (match cc with Some c => c | None => if v <? 90 then 20 else 19 end) = y / 100
   | None => last = d4 y
   end) ->
  finish (Z.of_nat n mod 7) cc yy (m - 1) d (clock_words h mi s last) = Ok (tp_at n (utc h mi s), []).
Proof.
  intros n y m d h mi s cc yy last L Hn C Hy. pose proof C as (H1 & H2 & H3). unfold clock_words, finish. rewrite parse_sp_str.
  destruct (d2_digits h) as (A1 & A2 & A3); [lia|]. destruct (d2_digits mi) as (B1 & B2 & B3); [lia|]. destruct (d2_digits s) as (C1 & C2 & C3); [lia|].
  rewrite (int_word (d2 h)) by assumption. cbn [rbind]. rewrite A3. change (require_separator 58 (WByte 58 :: ?x)) with (Ok x). cbn [rbind].
  rewrite (int_word (d2 mi)) by assumption. cbn [rbind]. rewrite B3. change (require_separator 58 (WByte 58 :: ?x)) with (Ok x). cbn [rbind].
  rewrite (int_word (d2 s)) by assumption. cbn [rbind]. rewrite C3, parse_sp_str.
  pose proof (nth_valid n L) as V. rewrite Hn in V. destruct V as (Vy & _).
  assert (E : forall c yr, c = y / 100 -> yr = y mod 100 ->
    (let! d0 := date_calendar None (Some c) (Some yr) (Some (m - 1 + 1)) (Some d) in
     let! t := new_time (Some h) (Some mi) (Some s) (Some 0) None None in
     let! tp := new_timepoint d0 t in
     let! (_, _, _, _, dow) := get_week_day (tp_date tp) in
     if oeq dow (Some (Z.of_nat n mod 7 + 1)) then Ok (tp, []) else Err BadSyntax) = Ok (tp_at n (utc h mi s), @nil word)).
  { intros c yr -> ->. replace (m - 1 + 1) with m by lia.
    assert (Ed : date_calendar None (Some (y / 100)) (Some (y mod 100)) (Some m) (Some d) = Ok (cal (y, m, d))).
    { apply c21_calendar. rewrite <- Hn. apply nth_valid. exact L. }
    rewrite Ed. cbn [rbind]. destruct (utc_wf h mi s C) as [W E]. rewrite E. cbn [rbind]. rewrite <- Hn, (new_tp n _ W L). cbn [rbind].
    change (tp_date (tp_at n (utc h mi s))) with (cal (nth_day n)). destruct (dow_ok n) as (x1 & x2 & x3 & x4 & E2). rewrite E2. cbn [rbind oeq].
    rewrite Z.eqb_refl. reflexivity. }
  destruct yy as [v|].
  - destruct Hy as (-> & Hv & Hc). rewrite require_token_ok by (apply lit_token; [discriminate|reflexivity]). cbn [rbind].
    change (negb (str_eqb (b_upper (lit "GMT")) (lit "UTC")) && negb (str_eqb (b_upper (lit "GMT")) (lit "GMT"))) with false. cbv iota. cbn [rbind].
    apply E; assumption.
  - subst last. destruct (d4_digits y) as (D1 & D2 & D3); [lia|]. rewrite (int_word (d4 y)) by assumption. cbn [rbind]. rewrite D3. apply E; reflexivity.
Qed.

Lemma lex_day_sep : forall (tail : str -> list word -> Prop) t s l, token t -> no_lws s -> lexed tail false s l ->
  lexed tail false (t ++ 44 :: 32 :: s) (WStr t :: WByte 44 :: l).
Proof.
  intros tail t s l T N L. apply lex_tok; [exact T|exact (stop_sep 44 nil eq_refl)|]. apply lex_sep; [reflexivity|reflexivity|]. apply (lex_sp tail false); assumption.
Qed.
Lemma GMT_token : token (lit "GMT"). Proof. apply lit_token; [discriminate|reflexivity]. Qed.
Lemma mod7 : forall n, Z.of_nat (n mod 7) = Z.of_nat n mod 7.
Proof. intros n. apply (Nat2Z.inj_mod n 7). Qed.

Lemma from_str_eq : forall src ws tp, words_of src true = Ok ws -> require_fulldate ws = Ok (tp, []) -> fd_from_http_str src = Ok tp.
Proof. intros src ws tp H1 H2. unfold fd_from_http_str. rewrite H1. cbn [rbind]. rewrite H2. reflexivity. Qed.

Lemma rfc1123_parse : forall n h mi s, Z.of_nat n < max_day -> clock_ok h mi s ->
  fd_from_http_str (rfc1123 n h mi s) = Ok (tp_at n (utc h mi s)).
Proof.
  intros n h mi s L C. unfold rfc1123. pose proof (nth_valid n L) as V. destruct (nth_day n) as [[y m] d] eqn:Hn. destruct V as (Vy & Vm & Vd).
  assert (Hd : 1 <= d <= 31) by (unfold month_len in Vd; repeat destr; lia).
  destruct (day_name (n mod 7)) as (wd & -> & _ & Tw & Ew & _); [apply Nat.mod_upper_bound; lia|]. rewrite mod7 in Ew.
  destruct (month_name_ok m Vm) as (_ & [Tm _] & Em & _). set (mn := month_name m) in *.
  destruct (d2_digits d) as (A1 & A2 & A3); [lia|]. destruct (d4_digits y) as (B1 & B2 & B3); [lia|].
  apply (from_str_eq _ (WStr wd :: WByte 44 :: WStr (d2 d) :: WStr mn :: WStr (d4 y) :: clock_words h mi s (lit "GMT"))).
  - apply words_ok. cbn [negb].
    change (wd ++ lit ", " ++ d2 d ++ lit " " ++ mn ++ lit " " ++ d4 y ++ lit " " ++ clock h mi s ++ lit " GMT")
      with (wd ++ 44 :: 32 :: (d2 d ++ 32 :: (mn ++ 32 :: (d4 y ++ 32 :: (clock h mi s ++ 32 :: lit "GMT"))))).
    apply lex_day_sep; [exact Tw|apply token_no_lws, tok_digits; assumption|].
    apply lex_word_sp; [apply tok_digits; assumption|apply token_no_lws; exact Tm|].
    apply lex_word_sp; [exact Tm|apply token_no_lws, tok_digits; assumption|].
    apply lex_word_sp; [apply tok_digits; assumption|apply clock_no_lws; exact C|].
    apply clock_lex; [exact C|apply GMT_token].
  - rewrite fulldate_eq, parse_sp_str, (require_token_ok wd _ Tw). cbn [rbind]. rewrite Ew. unfold require_dayfirst.
    change (parse_separator 44 (parse_sp (WByte 44 :: ?x))) with (true, x). cbv iota beta zeta. rewrite parse_sp_str. cbv iota.
    rewrite is_digits_ok by assumption. rewrite (int_word (d2 d)) by assumption. cbn [rbind]. rewrite parse_sp_str. unfold require_month.
    rewrite (require_token_ok mn _ Tm). cbn [rbind]. rewrite Em. cbn [rbind]. rewrite parse_sp_str, (int_word (d4 y)) by assumption. cbn [rbind].
    rewrite A3, B3. eapply finish_ok; [exact L|exact Hn|exact C|]. split; [reflexivity|]. split; reflexivity.
Qed.

Lemma rfc850_parse : forall n h mi s, Z.of_nat n < max_day -> clock_ok h mi s -> 1990 <= year_of n <= 2089 ->
  fd_from_http_str (rfc850 n h mi s) = Ok (tp_at n (utc h mi s)).
Proof.
  intros n h mi s L C HY. unfold rfc850, year_of in *. pose proof (nth_valid n L) as V. destruct (nth_day n) as [[y m] d] eqn:Hn. cbn [fst] in HY. destruct V as (Vy & Vm & Vd).
  assert (Hd : 1 <= d <= 31) by (unfold month_len in Vd; repeat destr; lia).
  destruct (long_day_name (n mod 7)) as (wd & -> & Tw & Ew); [apply Nat.mod_upper_bound; lia|]. rewrite mod7 in Ew.
  destruct (month_name_ok m Vm) as (_ & [Tm _] & Em & _ & N45). set (mn := month_name m) in *.
  destruct (d2_digits d) as (A1 & A2 & A3); [lia|]. destruct (d2_digits (y mod 100)) as (B1 & B2 & B3); [lia|].
  set (dd := d2 d ++ 45 :: mn ++ 45 :: d2 (y mod 100)).
  assert (Td : token dd).
  { split; [discriminate|]. unfold dd. apply Forall_app. split; [apply tok_digits; assumption|]. constructor; [apply is_tok_tok; reflexivity|].
    apply Forall_app. split; [apply Tm|]. constructor; [apply is_tok_tok; reflexivity|]. apply tok_digits; assumption. }
  assert (N1 : ~ In 45 (d2 d)) by (intros X; rewrite Forall_forall in A2; apply A2 in X; destruct X; lia).
  assert (N2 : ~ In 45 (d2 (y mod 100))) by (intros X; rewrite Forall_forall in B2; apply B2 in X; destruct X; lia).
  apply (from_str_eq _ (WStr wd :: WByte 44 :: WStr dd :: clock_words h mi s (lit "GMT"))).
  - apply words_ok. cbn [negb].
    replace (wd ++ lit ", " ++ d2 d ++ lit "-" ++ mn ++ lit "-" ++ d2 (y mod 100) ++ lit " " ++ clock h mi s ++ lit " GMT")
      with (wd ++ 44 :: 32 :: (dd ++ 32 :: (clock h mi s ++ 32 :: lit "GMT"))).
    2:{ unfold dd. rewrite <- !app_assoc. cbn [app]. rewrite <- !app_assoc. reflexivity. }
    apply lex_day_sep; [exact Tw|apply token_no_lws; exact Td|].
    apply lex_word_sp; [exact Td|apply clock_no_lws; exact C|].
    apply clock_lex; [exact C|apply GMT_token].
  - rewrite fulldate_eq, parse_sp_str, (require_token_ok wd _ Tw). cbn [rbind]. rewrite Ew. unfold require_dayfirst.
    change (parse_separator 44 (parse_sp (WByte 44 :: ?x))) with (true, x). cbv iota beta zeta. rewrite parse_sp_str. cbv iota.
    assert (ND : is_digits dd = false).
    { unfold is_digits, all_of, dd. cbn [d2 app]. cbn [forallb]. rewrite !andb_false_iff. right. right. left. reflexivity. }
    rewrite ND, (require_token_ok dd _ Td). cbn [rbind]. unfold dd. rewrite split_app, split_app, split_no by assumption.
    rewrite !is_digits_ok by assumption. cbn [andb]. rewrite Em. cbn [rbind]. rewrite A3, B3.
    eapply finish_ok; [exact L|exact Hn|exact C|]. split; [reflexivity|]. split; [reflexivity|]. destr; b2p; lia.
Qed.

Lemma asctime_parse : forall n h mi s, Z.of_nat n < max_day -> clock_ok h mi s ->
  fd_from_http_str (asctime n h mi s) = Ok (tp_at n (utc h mi s)).
Proof.
  intros n h mi s L C. unfold asctime. pose proof (nth_valid n L) as V. destruct (nth_day n) as [[y m] d] eqn:Hn. destruct V as (Vy & Vm & Vd).
  assert (Hd : 1 <= d <= 31) by (unfold month_len in Vd; repeat destr; lia).
  destruct (day_name (n mod 7)) as (wd & -> & _ & Tw & Ew & _); [apply Nat.mod_upper_bound; lia|]. rewrite mod7 in Ew.
  destruct (month_name_ok m Vm) as (_ & [Tm _] & Em & _). set (mn := month_name m) in *. destruct (d4_digits y) as (B1 & B2 & B3); [lia|].
  set (dt := if d <? 10 then d1 d else d2 d).
  assert (A : dt <> [] /\ Forall dec_digit dt /\ decimal dt = d).
  { unfold dt. destr; b2p; [apply d1_digits; lia|apply d2_digits; lia]. }
  destruct A as (A1 & A2 & A3).
  assert (L4 : lexed ending false (dt ++ 32 :: (clock h mi s ++ 32 :: d4 y)) (WStr dt :: clock_words h mi s (d4 y))).
  { apply lex_word_sp; [apply tok_digits; assumption|apply clock_no_lws; exact C|]. apply clock_lex; [exact C|apply tok_digits; assumption]. }
  apply (from_str_eq _ (WStr wd :: WStr mn :: WStr dt :: clock_words h mi s (d4 y))).
  - apply words_ok. cbn [negb].
    change (wd ++ lit " " ++ mn ++ lit " " ++ (if d <? 10 then lit " " ++ d1 d else d2 d) ++ lit " " ++ clock h mi s ++ lit " " ++ d4 y)
      with (wd ++ 32 :: (mn ++ 32 :: ((if d <? 10 then 32 :: d1 d else d2 d) ++ 32 :: (clock h mi s ++ 32 :: d4 y)))).
    apply lex_word_sp; [exact Tw|apply token_no_lws; exact Tm|]. unfold dt in *. destruct (d <? 10).
    + apply lex_tok; [exact Tm|exact (stop_sep 32 nil eq_refl)|]. cbn [app].
      apply (lx_lws ending false [32; 32] (d1 d ++ 32 :: clock h mi s ++ 32 :: d4 y)); [|apply token_no_lws, tok_digits; assumption|exact L4].
      apply lwss_one. apply lws_plain; [discriminate|]. repeat constructor.
    + apply lex_word_sp; [exact Tm|apply token_no_lws, tok_digits; assumption|exact L4].
  - rewrite fulldate_eq, parse_sp_str, (require_token_ok wd _ Tw). cbn [rbind]. rewrite Ew. unfold require_dayfirst.
    change (parse_separator 44 (parse_sp (WStr mn :: ?x))) with (false, WStr mn :: x). cbv iota beta zeta. unfold require_month.
    rewrite (require_token_ok mn _ Tm). cbn [rbind]. rewrite Em. cbn [rbind]. rewrite parse_sp_str, (int_word dt) by assumption. cbn [rbind].
    rewrite A3. eapply finish_ok; [exact L|exact Hn|exact C|]. reflexivity.
Qed.

Lemma fd_format : forall n t, is_time t -> zoned t -> t_minute t <> None -> t_second t <> None -> Z.of_nat n < max_day -> utc_in_range n t ->
  exists k h mi, fd_to_bytes (tp_at n t) = Ok (rfc1123 k h mi (the (t_second t))) /\ Z.of_nat k < max_day /\ clock_ok h mi (the (t_second t)) /\
    1440 * Z.of_nat k + 60 * h + mi = utc_minutes n t.
Proof.
  intros n t T Zn Nm Ns L R. destruct (to_utc n t T Zn Nm L R) as (k & h & mi & E & Lk & H1 & H2 & H3). exists k, h, mi.
  apply wf_is_time in T as ((_ & _ & _ & Hs & _) & _). destruct (t_second t) as [s|]; [|congruence]. cbn [the] in *.
  split; [|split; [exact Lk|split; [split; [lia|split; lia]|exact H3]]].
  unfold fd_to_bytes. rewrite E. cbn [rbind]. change (tp_date (tp_at k ?t)) with (cal (nth_day k)). destruct (dow_ok k) as (a & b & c & e & ->). cbn [rbind].
  unfold rfc1123. pose proof (nth_valid k Lk) as V. destruct (nth_day k) as [[y m] d] eqn:Hk. destruct V as (Vy & Vm & Vd).
  cbn [cal d_year d_month d_day d_century tp_time tp_at t_minute t_second t_hour].
  assert (Hd : 1 <= d <= 31) by (unfold month_len in Vd; repeat destr; lia).
  replace (Z.of_nat k mod 7 + 1 - 1) with (Z.of_nat (k mod 7)) by (rewrite mod7; lia).
  destruct (day_name (k mod 7)) as (wd & Ewd & Enth & _); [apply Nat.mod_upper_bound; lia|]. rewrite Ewd.
  assert (En : nth_name wkday (Z.of_nat (k mod 7)) = Ok wd).
  { unfold nth_name. replace (Z.of_nat (k mod 7) <? 0) with false by (symmetry; apply Z.ltb_ge; lia).
    replace (Z.of_nat (k mod 7) <? 0) with false by (symmetry; apply Z.ltb_ge; lia). rewrite Nat2Z.id. unfold get. rewrite Enth. reflexivity. }
  rewrite En. cbn [rbind]. destruct (month_name_ok m Vm) as (Em & _). rewrite Em. cbn [rbind].
  replace (y / 100 * 100 + y mod 100) with y by lia. rewrite !pad2, pad4 by lia. unfold clock. rewrite <- !app_assoc. reflexivity.
Qed.
