(** The tokens of the expression parser. *)
From Verif Require Import Py ExprModel ExprSpec.

Section Lex.
Variable E : env.
Hypothesis OK : env_ok E.

(** what can follow a token *)
Definition dl (r : str) : Prop := match r with [] => True | c :: _ => In c (lit " (),/") \/ c = 9 end.

Lemma dl_reserved c r : dl (c :: r) -> reserved_char c.
Proof. cbn. unfold reserved_char. cbn. intuition. Qed.
Lemma dl_cons c r : dl (c :: r) -> idchar E c = false /\ c <> 46 /\ c <> 39 /\ ~ 48 <= c <= 57 /\ ~ is_letter c /\ 0 <= c < 128.
Proof.
  intros H. assert (R := dl_reserved _ _ H). split.
  - destruct (idchar E c) eqn:Q; auto. elim (ok_char E OK c Q); auto.
  - unfold is_letter. cbn in H. intuition lia.
Qed.

Lemma span_app (p : Z -> bool) a r :
  (forall d, In d a -> p d = true) -> match r with c :: _ => p c = false | [] => True end ->
  span p (a ++ r) = (a, r).
Proof.
  intros H R. induction a as [|c a IH]; cbn.
  - destruct r as [|c r]; cbn; auto. rewrite R. reflexivity.
  - rewrite (H c) by (cbn; auto). rewrite IH by (intros; apply H; cbn; auto). reflexivity.
Qed.
Lemma span_id a r : (forall d, In d a -> idchar E d = true) -> dl r \/ (exists r', r = 46 :: r') ->
  span (idchar E) (a ++ r) = (a, r).
Proof.
  intros H R. apply span_app; auto. destruct r as [|c r]; auto. destruct R as [R|(r' & Q)].
  - apply (dl_cons _ _ R).
  - inversion Q; subst. destruct (idchar E 46) eqn:I; auto.
    elim (ok_char E OK _ I). left. cbn. intuition.
Qed.
Lemma parse_app p r : parse p (p ++ r) = Some r.
Proof. induction p; cbn; auto. rewrite Z.eqb_refl. auto. Qed.
Lemma parse_hd c d r : d <> c -> parse [c] (d :: r) = None.
Proof. intros H. cbn. destruct (c =? d) eqn:Q; auto. apply Z.eqb_eq in Q. congruence. Qed.

Lemma ident_loop_ok n r : ident_text E n -> dl r -> forall fuel, (length n <= fuel)%nat ->
  ident_loop E fuel (n ++ r) = Some (n, r).
Proof.
  intros H. revert r. induction H as [c a Hc Ha | a b Ha IHa Hd Hb IHb]; intros r R fuel L.
  - destruct fuel as [|f]; [cbn in L; lia|]. cbn [ident_loop app]. rewrite Hc.
    rewrite span_id by auto.
    replace (parse (lit ".") r) with (@None str); auto.
    destruct r as [|d r]; auto. symmetry. apply parse_hd. apply (dl_cons _ _ R).
  - destruct Ha as [c a Hc Ha | a1 a2 Ha1 Hd1 Ha2].
    2:{ elim Hd. apply in_or_app. right. cbn. auto. }
    destruct fuel as [|f]; [cbn in L; lia|]. cbn [ident_loop app]. rewrite Hc.
    rewrite <- app_assoc. rewrite span_id; auto.
    2:{ right. cbn. eauto. }
    rewrite <- app_assoc, parse_app. rewrite IHb; auto.
    cbn [length app] in L. rewrite !app_length in L. cbn in L. lia.
Qed.
Lemma ident_ok n r : ident_text E n -> dl r -> ident E (n ++ r) = Some (n, r).
Proof. intros. apply ident_loop_ok; auto. rewrite app_length. lia. Qed.
Lemma ident_none c r : idstart E c = false -> ident E (c :: r) = None.
Proof. intros H. cbn. rewrite H. reflexivity. Qed.
Lemma ident_hd n : ident_text E n -> exists c r, n = c :: r /\ idstart E c = true.
Proof. induction 1 as [c a|a b Ha (c & r & -> & Hc)]; cbn; eauto. Qed.
Lemma idstart_not c : idstart E c = true -> ~ reserved_char c /\ ~ 48 <= c <= 57.
Proof. intros H. split; [apply (ok_char E OK), (ok_start E OK), H | apply (ok_digit E OK), H]. Qed.

(** white space *)
Lemma wsp_app w s : ws w -> wsp (w ++ s) = wsp s.
Proof.
  induction w as [|c w IH]; intros W; cbn; auto.
  assert (is_ws c = true) as ->.
  { destruct (W c); [cbn; auto | subst; reflexivity | subst; reflexivity]. }
  apply IH. intros d D. apply W. cbn. auto.
Qed.
Lemma wsp_hd c r : c <> 32 -> c <> 9 -> wsp (c :: r) = c :: r.
Proof.
  intros A B. cbn. assert (is_ws c = false) as ->; auto. unfold is_ws.
  apply orb_false_iff. split; apply Z.eqb_neq; auto.
Qed.
Lemma wsp_id n r : ident_text E n -> wsp (n ++ r) = n ++ r.
Proof.
  intros H. apply ident_hd in H as (c & a & -> & H). apply idstart_not in H as (H & _). cbn [app].
  apply wsp_hd; intros ->; apply H; unfold reserved_char; cbn; auto.
Qed.
Lemma wsp_idem s : wsp (wsp s) = wsp s.
Proof. induction s as [|c s IH]; cbn; auto. destruct (is_ws c) eqn:Q; auto. cbn. rewrite Q. auto. Qed.
Lemma wsp_len s : (length (wsp s) <= length s)%nat.
Proof. induction s as [|c s IH]; cbn; auto. destruct (is_ws c); cbn; lia. Qed.
Lemma ws_dl w r : ws1 w -> dl (w ++ r).
Proof.
  intros (W & N). destruct w as [|c w]; [congruence|]. cbn.
  destruct (W c); [cbn; auto| |]; subst; auto.
Qed.
Lemma ws_dl0 w r : ws w -> dl r -> dl (w ++ r).
Proof. intros W D. destruct w as [|c w]; auto. apply (ws_dl (c :: w)). split; auto; discriminate. Qed.

(** literals *)
Lemma lower_words w : (forall c, In c w -> 97 <= c <= 122) -> lower E w = w.
Proof.
  intros H. rewrite (ok_lower E OK) by (intros c C; specialize (H c C); lia).
  induction w as [|c w IH]; cbn; auto. rewrite IH by (intros; apply H; cbn; auto). f_equal.
  unfold ascii_lower. destruct (H c); [cbn; auto|]. replace (c <=? 90) with false by (symmetry; apply Z.leb_gt; lia).
  rewrite andb_false_r. reflexivity.
Qed.
Lemma ident_word w : (forall c, In c w -> is_letter c) -> w <> [] -> ident_text E w.
Proof.
  intros H N. destruct w as [|c w]; [congruence|]. constructor.
  - apply (ok_letter E OK), H. cbn. auto.
  - intros d D. apply (ok_start E OK), (ok_letter E OK), H. cbn. auto.
Qed.

Lemma str_neq (a b : str) : a <> b -> str_eqb a b = false.
Proof. apply str_eqb_neq. Qed.

(** an identifier that introduces no literal *)
Definition plain (n : str) : Prop := ident_text E n /\ ~ In (lower E n) literal_words /\ n <> lit "X".
Lemma property_plain n : property_name E n -> plain n.
Proof.
  intros (H & R). unfold reserved in R. split; [auto|split]; intros Q; apply R; [left; auto|right; subst; cbn; auto].
Qed.
Lemma parse_lit_plain n r : plain n -> dl r -> parse_lit E (n ++ r) = Ok (None, n ++ r).
Proof.
  intros (H & W & X) D. unfold parse_lit. rewrite ident_ok by auto. cbv zeta.
  rewrite (str_neq n (lit "X")) by auto. cbn [orb].
  unfold literal_words in W. cbn [In] in W.
  rewrite !str_neq by (intros Q; apply W; rewrite Q; repeat (try (left; reflexivity); right)). reflexivity.
Qed.

Lemma squote_ok q v r : quoted q v -> match r with 39 :: _ => False | _ => True end ->
  forall acc, squote (q ++ 39 :: r) acc = Ok (rev acc ++ v, r).
Proof.
  intros H R. induction H as [|s v H IH|c s v Hc H IH]; intros acc.
  - cbn [app]. rewrite app_nil_r. destruct r as [|c r]; [reflexivity|].
    destruct (Z.eq_dec c 39) as [->|N]; [contradiction|].
    cbn. destruct c as [|p|p]; auto. destruct p; auto.
    destruct p; auto. destruct p; auto. destruct p; auto. destruct p; auto. destruct p; auto. congruence.
  - cbn [app]. change (squote (39 :: 39 :: s ++ 39 :: r) acc) with (squote (s ++ 39 :: r) (39 :: acc)).
    rewrite IH. cbn. rewrite <- app_assoc. reflexivity.
  - cbn [app]. assert (squote (c :: s ++ 39 :: r) acc = squote (s ++ 39 :: r) (c :: acc)) as ->.
    { cbn. destruct c as [|p|p]; auto. destruct p; auto.
      destruct p; auto. destruct p; auto. destruct p; auto. destruct p; auto. destruct p; auto. congruence. }
    rewrite IH. cbn. rewrite <- app_assoc. reflexivity.
Qed.

Lemma is_digit_spec c : is_digit c = true <-> 48 <= c <= 57.
Proof. unfold is_digit. rewrite andb_true_iff, !Z.leb_le. tauto. Qed.
Lemma decimal_digits s n : decimal s n -> forall c, In c s -> is_digit c = true.
Proof.
  induction 1 as [d H|s n d H IH D]; intros c C.
  - destruct C as [<-|[]]. apply is_digit_spec. lia.
  - apply in_app_or in C as [C|[<-|[]]]; auto. apply is_digit_spec. lia.
Qed.
Lemma decimal_value s n : decimal s n -> dec_value s = n.
Proof.
  induction 1 as [d H|s n d H IH D].
  - unfold dec_value. cbn [fold_left]. lia.
  - unfold dec_value in *. rewrite fold_left_app, IH. cbn [fold_left]. lia.
Qed.
Lemma decimal_nil n : ~ decimal [] n.
Proof. intros H. inversion H. destruct s; discriminate. Qed.

Lemma parse_insens_no c w l r : lower E (c :: w) = lower E (c :: w) -> 0 <= c < 128 ->
  match l with x :: _ => x <> ascii_lower c | [] => False end ->
  length l = 3%nat -> firstn 3 r = c :: w -> parse_insens E l r = None.
Proof.
  intros _ C L N F. unfold parse_insens. rewrite N, F.
  destruct (ok_lower_head E OK c w C) as (t & ->). destruct l as [|x l]; [contradiction|].
  rewrite str_neq; auto. congruence.
Qed.
Lemma parse_insens_hd l c r : 0 <= c < 128 -> (In l [lit "inf"; lit "nan"]) -> ~ is_letter c ->
  parse_insens E l (c :: r) = None.
Proof.
  intros C L N. apply (parse_insens_no c (firstn 2 r)); auto.
  - destruct L as [<-|[<-|[]]]; cbn; unfold ascii_lower;
    (destruct ((65 <=? c) && (c <=? 90)) eqn:Q; [b2p; elim N; left; lia|]); intros Z; apply N; right; lia.
  - destruct L as [<-|[<-|[]]]; reflexivity.
Qed.

Lemma parse_one_no cs c r : ~ In c cs -> parse_one cs (c :: r) = None.
Proof. intros H. cbn. apply zin_not_In in H. rewrite H. reflexivity. Qed.
(** what may follow a number *)
Definition num_end (r : str) : Prop :=
  match r with [] => True | c :: _ => ~ 48 <= c <= 57 /\ c <> 46 /\ c <> 101 /\ c <> 69 end.
Lemma parse_numeric_int sign s n r : decimal s n -> num_end r ->
  parse_numeric E ((if sign : bool then [45] else []) ++ s ++ r) = Some (mkNum sign s None false None, r).
Proof.
  intros D R. unfold parse_numeric.
  assert (exists c s', s = c :: s' /\ 48 <= c <= 57) as (c & s' & Q & C).
  { destruct s as [|c s']; [elim (decimal_nil _ D)|]. exists c, s'. split; auto.
    apply is_digit_spec. apply (decimal_digits _ _ D). cbn. auto. }
  assert (parse (lit "-") ((if sign then [45] else []) ++ s ++ r) = if sign then Some (s ++ r) else None) as ->.
  { destruct sign; cbn [app]; [apply (parse_app (lit "-"))|]. subst. cbn [app]. apply parse_hd. cbn. lia. }
  assert ((let (sg, s1) := match (if sign then Some (s ++ r) else None) with Some r0 => (true, r0)
    | None => (false, (if sign then [45] else []) ++ s ++ r) end in (sg, s1)) = (sign, s ++ r)) as P by (destruct sign; reflexivity).
  destruct sign; cbn [app] in *; cbn beta iota.
  all: subst s; cbn [app]; rewrite !parse_insens_hd by (auto; cbn; auto; unfold is_letter; lia).
  all: change (c :: s' ++ r) with ((c :: s') ++ r).
  all: rewrite (span_app is_digit (c :: s') r);
   [| apply (decimal_digits _ _ D) | destruct r as [|e r]; auto; destruct (is_digit e) eqn:I; auto; apply is_digit_spec in I; destruct R as (R & _); elim R; exact I ].
  all: assert (parse (lit ".") r = None) as -> by (destruct r as [|e r]; auto; apply parse_hd; apply R).
  all: assert (parse_one (lit "eE") r = None) as -> by
    (destruct r as [|e r]; auto; apply parse_one_no; cbn in *; intuition).
  all: reflexivity.
Qed.
Lemma int_literal_ok maxlen lo hi sign s n : decimal s n -> (length s <= maxlen)%nat ->
  lo <= (if sign : bool then - n else n) <= hi ->
  int_literal maxlen lo hi (mkNum sign s None false None) = Ok (if sign then - n else n).
Proof.
  intros D L B. unfold int_literal, num_value. cbn [n_l n_r n_e n_sign].
  destruct s as [|c s']; [elim (decimal_nil _ D)|]. cbn [orb].
  replace (maxlen <? length (c :: s'))%nat with false by (symmetry; apply Nat.ltb_ge; auto).
  assert (forallb is_digit (c :: s') = true) as -> by (apply forallb_forall, (decimal_digits _ _ D)).
  cbn [orb negb]. rewrite (decimal_value _ _ D).
  assert ((if sign then - n else n) <? lo = false) as -> by (apply Z.ltb_ge; lia).
  assert (hi <? (if sign then - n else n) = false) as -> by (apply Z.ltb_ge; lia). reflexivity.
Qed.

Lemma hexdigit_hex a x : hexdigit a x -> is_hex a = true /\ hexv a = x /\ 0 <= x <= 15 /\ 0 <= a < 128.
Proof.
  intros H. assert (is_hex a = true /\ hexv a = x /\ 0 <= x <= 15 /\ 0 <= a < 128); auto.
  unfold is_hex, is_digit, hexv.
  destruct (48 <=? a) eqn:A1; destruct (a <=? 57) eqn:A2; destruct (65 <=? a) eqn:A3; destruct (a <=? 70) eqn:A4;
  destruct (97 <=? a) eqn:A5; destruct (a <=? 102) eqn:A6; b2p; inversion H; subst; cbn [andb orb];
  (split; [first [reflexivity | exfalso; lia]|]); lia.
Qed.
Lemma hexbytes_ok s l : hexbytes s l -> hex_bytes s = Some l /\ (forall c, In c s -> is_hex c = true).
Proof.
  induction 1 as [|a b x y s l Ha Hb H (IH1 & IH2)]; cbn; [split; auto; contradiction|].
  apply hexdigit_hex in Ha as (? & ? & _). apply hexdigit_hex in Hb as (? & ? & _). subst.
  rewrite IH1. split; auto. intros c [<-|[<-|C]]; auto.
Qed.
Lemma hexn_ok a r n : length a = n -> (forall x, In x a -> exists v, hexdigit x v) -> hexn n (a ++ r) = Some (a, r).
Proof.
  intros <- H. unfold hexn. rewrite firstn_app, firstn_all, Nat.sub_diag, skipn_app, skipn_all, Nat.sub_diag.
  cbn [firstn skipn app]. rewrite app_nil_r, Nat.eqb_refl.
  assert (forallb is_hex a = true) as ->; auto.
  apply forallb_forall. intros x X. destruct (H x X) as (v & V). apply hexdigit_hex in V as (V & _). auto.
Qed.
Lemma lowhex_ascii x v : hexdigit x v -> lowhex x = ascii_lower x.
Proof.
  intros H. unfold lowhex, ascii_lower. inversion H as [d D|d D|d D]; subst.
  - replace (65 <=? 48 + v) with false by (symmetry; apply Z.leb_gt; lia). reflexivity.
  - replace (55 + v <=? 70) with true by (symmetry; apply Z.leb_le; lia).
    replace (55 + v <=? 90) with true by (symmetry; apply Z.leb_le; lia). reflexivity.
  - replace (87 + v <=? 70) with false by (symmetry; apply Z.leb_gt; lia).
    replace (87 + v <=? 90) with false by (symmetry; apply Z.leb_gt; lia). reflexivity.
Qed.
Lemma parse_guid_ok s h r : guid_text s h -> parse_guid (s ++ 39 :: r) = Ok (h, r).
Proof.
  intros (a & b & c & d & e & -> & La & Lb & Lc & Ld & Le & H & ->). unfold parse_guid.
  assert (forall l, (forall x, In x l -> In x (a ++ b ++ c ++ d ++ e)) -> forall x, In x l -> exists v, hexdigit x v) as H' by auto.
  rewrite <- !app_assoc.
  rewrite (hexn_ok a) by (auto; apply H'; intros; rewrite !in_app_iff; auto). cbn [opt_or].
  rewrite parse_app. cbn [opt_or].
  rewrite (hexn_ok b) by (auto; apply H'; intros; rewrite !in_app_iff; auto). cbn [opt_or].
  rewrite parse_app. cbn [opt_or].
  rewrite (hexn_ok c) by (auto; apply H'; intros; rewrite !in_app_iff; auto). cbn [opt_or].
  rewrite parse_app. cbn [opt_or].
  rewrite (hexn_ok d) by (auto; apply H'; intros; rewrite !in_app_iff; auto 6). cbn [opt_or].
  rewrite parse_app. cbn [opt_or].
  rewrite (hexn_ok e) by (auto; apply H'; intros; rewrite !in_app_iff; auto 6). cbn [opt_or rbind].
  change (39 :: r) with (lit "'" ++ r). rewrite parse_app. cbn [opt_or]. do 2 f_equal.
  apply map_ext_in. intros x X. destruct (H x X) as (v & V). eapply lowhex_ascii; eauto.
Qed.

Lemma dl_num r : dl r -> num_end r.
Proof. destruct r as [|c r]; cbn; auto. intros H. intuition lia. Qed.
Lemma not_start c : reserved_char c -> idstart E c = false.
Proof. intros H. destruct (idstart E c) eqn:Q; auto. apply idstart_not in Q as (Q & _). contradiction. Qed.
Lemma not_start_digit c : 48 <= c <= 57 -> idstart E c = false.
Proof. intros H. destruct (idstart E c) eqn:Q; auto. apply idstart_not in Q as (_ & Q). contradiction. Qed.

(** the branches of parse_lit by the first character *)
Lemma parse_lit_num c s : idstart E c = false -> (c = 45 \/ 48 <= c <= 57) -> parse_lit E (c :: s) =
        match parse_numeric E (c :: s) with
        | None => Ok (None, c :: s)
        | Some (n, r) =>
          match parse_one (lit "Dd") r with
          | Some (_, r) => if num_ok E FDouble n then Ok (Some (LNum FDouble n), r) else Err ValueError
          | None =>
          match parse_one (lit "Ff") r with
          | Some (_, r) => if num_ok E FSingle n then Ok (Some (LNum FSingle n), r) else Err ValueError
          | None =>
          match parse_one (lit "Mm") r with
          | Some (_, r) => if num_ok E FDecimal n then Ok (Some (LNum FDecimal n), r) else Err ValueError
          | None =>
          match parse_one (lit "Ll") r with
          | Some (_, r) => let! v := int64_literal n in Ok (Some (LInt64 v), r)
          | None => let! v := int32_literal n in Ok (Some (LInt32 v), r)
          end end end end
        end.
Proof.
  intros I C. unfold parse_lit. rewrite ident_none by auto.
  assert (zin c (lit "-.0123456789") = true) as Z.
  { apply zin_In. cbn. lia. }
  rewrite Z.
  assert (c = 45 \/ c = 48 \/ c = 49 \/ c = 50 \/ c = 51 \/ c = 52 \/ c = 53 \/ c = 54 \/ c = 55 \/ c = 56 \/ c = 57) as D by lia.
  repeat (destruct D as [->|D]; [reflexivity|]). subst. reflexivity.
Qed.
Lemma parse_one_dl cs r : (forall c, In c cs -> is_letter c) -> dl r -> parse_one cs r = None.
Proof.
  intros L D. destruct r as [|c r]; auto. apply parse_one_no. intros C. apply dl_cons in D as (_ & _ & _ & _ & D & _).
  auto.
Qed.

Lemma parse_lit_ok l s r : literal_text E l s -> dl r -> parse_lit E (s ++ r) = Ok (Some l, r).
Proof.
  intros H D. destruct H as [s I L|s I L|s I L|s n S B|s n c S B C|s v Q|s l Q N|s h Q].
  1-3: unfold parse_lit; rewrite ident_ok by auto; cbv zeta; rewrite L; reflexivity.
  - assert (exists sg d n0, s = (if sg : bool then [45] else []) ++ d /\ decimal d n0 /\ (length d <= 10)%nat /\ n = if sg then - n0 else n0) as (sg & d & n0 & -> & Dd & L & ->).
    { inversion S; subst; [exists false|exists true]; cbn; eauto 8. }
    assert (exists c s', (if sg then [45] else []) ++ d = c :: s' /\ (c = 45 \/ 48 <= c <= 57)) as (c & s' & Q & C).
    { destruct sg; cbn; eauto. destruct d as [|c d]; [elim (decimal_nil _ Dd)|]. exists c, d. split; auto. right.
      apply is_digit_spec, (decimal_digits _ _ Dd). cbn. auto. }
    assert (parse_numeric E (((if sg then [45] else []) ++ d) ++ r) = Some (mkNum sg d None false None, r)) as P.
    { rewrite <- app_assoc. apply parse_numeric_int with (n := n0); auto. apply dl_num; auto. }
    rewrite Q in *. cbn [app] in *. rewrite parse_lit_num.
    + rewrite P. rewrite !parse_one_dl; auto; try (cbn; unfold is_letter; intros x X; intuition lia).
      unfold int32_literal. rewrite (int_literal_ok _ _ _ sg d n0); auto.
    + destruct C as [->|C]; [apply not_start; left; cbn; auto 10|apply not_start_digit; auto].
    + auto.
  - assert (exists sg d n0, s = (if sg : bool then [45] else []) ++ d /\ decimal d n0 /\ (length d <= 19)%nat /\ n = if sg then - n0 else n0) as (sg & d & n0 & -> & Dd & L & ->).
    { inversion S; subst; [exists false|exists true]; cbn; eauto 8. }
    assert (exists c s', (if sg then [45] else []) ++ d = c :: s' /\ (c = 45 \/ 48 <= c <= 57)) as (k & s' & Q & K).
    { destruct sg; cbn; eauto. destruct d as [|k d]; [elim (decimal_nil _ Dd)|]. exists k, d. split; auto. right.
      apply is_digit_spec, (decimal_digits _ _ Dd). cbn. auto. }
    rewrite <- app_assoc. cbn [app].
    assert (c = 76 \/ c = 108) as C' by (cbn in C; intuition).
    assert (parse_numeric E (((if sg then [45] else []) ++ d) ++ c :: r) = Some (mkNum sg d None false None, c :: r)) as P.
    { rewrite <- app_assoc. apply parse_numeric_int with (n := n0); auto. cbn. lia. }
    rewrite Q in *. cbn [app] in *. rewrite parse_lit_num.
    + rewrite P.
      rewrite (parse_one_no (lit "Dd")), (parse_one_no (lit "Ff")), (parse_one_no (lit "Mm")) by (cbn; intuition lia).
      assert (parse_one (lit "Ll") (c :: r) = Some (c, r)) as -> by (destruct C'; subst; reflexivity).
      unfold int64_literal. rewrite (int_literal_ok _ _ _ sg d n0); auto.
    + destruct K as [->|K]; [apply not_start; left; cbn; auto 10|apply not_start_digit; auto].
    + auto.
  - unfold parse_lit. cbn [lit app]. rewrite <- app_assoc.
    change (Z.of_nat (nat_of_ascii "'")) with 39. rewrite ident_none.
    2:{ apply not_start. left. cbn. auto 10. }
    cbv iota. change ([39] ++ r) with (39 :: r).
    rewrite squote_ok with (v := v); auto.
    destruct r as [|c r]; auto. destruct (Z.eq_dec c 39) as [->|N].
    + apply dl_cons in D. intuition.
    + destruct c as [|p|p]; auto. destruct p; auto.
      do 5 (try (destruct p; auto)).
  - assert (ident E ((lit "X'" ++ s ++ lit "'") ++ r) = Some (lit "X", 39 :: s ++ 39 :: r)) as I.
    { replace ((lit "X'" ++ s ++ lit "'") ++ r) with (lit "X" ++ 39 :: s ++ 39 :: r).
      2:{ cbn. rewrite <- !app_assoc. reflexivity. }
      cbn [ident ident_loop app lit length]. unfold ident. cbn [length app lit ident_loop].
      change (Z.of_nat (nat_of_ascii "X")) with 88.
      rewrite (ok_letter E OK) by (left; lia).
      assert (span (idchar E) (39 :: s ++ 39 :: r) = ([], 39 :: s ++ 39 :: r)) as ->.
      { cbn. destruct (idchar E 39) eqn:Q39; auto. elim (ok_char E OK _ Q39). left. cbn. auto 10. }
      cbn. reflexivity. }
    unfold parse_lit. rewrite I. cbv zeta.
    assert (lower E (lit "X") = lit "x") as ->.
    { rewrite (ok_lower E OK); [reflexivity|]. cbn. intros c [<-|[]]. lia. }
    cbn [lit str_eqb]. 
    change (str_eqb (lit "x") (lit "null")) with false.
    apply hexbytes_ok in Q as (Q1 & Q2).
    assert (forall A B C D1 F G H J : res (option lit_ * str), True) as _ by auto.
    match goal with |- context [opt_or (parse ?a (39 :: ?x)) ?f] => change (opt_or (parse a (39 :: x)) f) with (f x) end.
    cbv beta.
    rewrite (span_app is_hex s (39 :: r)); auto.
    rewrite Q1. destruct s as [|a s]; [congruence|]. cbn [opt_or rbind]. 
    change (39 :: r) with (lit "'" ++ r). reflexivity.
  - assert (ident E ((lit "guid'" ++ s ++ lit "'") ++ r) = Some (lit "guid", 39 :: s ++ 39 :: r)) as I.
    { replace ((lit "guid'" ++ s ++ lit "'") ++ r) with (lit "guid" ++ 39 :: s ++ 39 :: r).
      2:{ cbn. rewrite <- !app_assoc. reflexivity. }
      unfold ident. 
      assert (span (idchar E) (39 :: s ++ 39 :: r) = ([], 39 :: s ++ 39 :: r)) as SP.
      { cbn. destruct (idchar E 39) eqn:Q39; auto. elim (ok_char E OK _ Q39). left. cbn. auto 10. }
      change (lit "guid" ++ 39 :: s ++ 39 :: r) with (103 :: lit "uid" ++ 39 :: s ++ 39 :: r).
      cbn [length ident_loop]. rewrite (ok_letter E OK) by (right; lia).
      rewrite (span_app (idchar E)).
      - reflexivity.
      - intros c C. apply (ok_start E OK), (ok_letter E OK). right. cbn in C. intuition lia.
      - destruct (idchar E 39) eqn:Q39; auto. elim (ok_char E OK _ Q39). left. cbn. auto 10. }
    unfold parse_lit. rewrite I. cbv zeta.
    rewrite lower_words by (cbn; intros c C; intuition lia).
    transitivity (let! (h, r) := parse_guid (s ++ 39 :: r) in Ok (Some (LGuid h), r)); [reflexivity|].
    rewrite (parse_guid_ok s h r); auto.
Qed.

(** first characters *)
Lemma literal_hd l s : literal_text E l s -> exists c r, s = c :: r /\ c <> 32 /\ c <> 9 /\ c <> 58.
Proof.
  assert (forall s, ident_text E s -> exists c r, s = c :: r /\ c <> 32 /\ c <> 9 /\ c <> 58) as I.
  { intros t T. apply ident_hd in T as (c & r & -> & T). exists c, r. apply idstart_not in T as (T & _).
    split; auto. unfold reserved_char in T. cbn in T. repeat split; intros ->; apply T; auto 12. }
  assert (forall k s n, signed k s n -> exists c r, s = c :: r /\ c <> 32 /\ c <> 9 /\ c <> 58) as S.
  { intros k t n H. inversion H; subst; [|exists 45; eexists; split; eauto; lia].
    destruct t as [|c t]; [elim (decimal_nil _ H0)|]. exists c, t. split; auto.
    assert (is_digit c = true) as D by (apply (decimal_digits _ _ H0); cbn; auto). apply is_digit_spec in D. lia. }
  intros H. destruct H; eauto.
  - destruct (S _ _ _ H) as (k & r & -> & R). cbn. eauto.
  - cbn. do 2 eexists. split; eauto. lia.
  - cbn. do 2 eexists. split; eauto. lia.
  - cbn. do 2 eexists. split; eauto. lia.
Qed.
End Lex.
