(** The parser finds the expression that the grammar gives a text. *)
From Verif Require Import Py ExprModel ExprSpec ExprLex.

Section Parse.
Variable E : env.
Hypothesis OK : env_ok E.

(** what the loop does once an operand has been read *)
Definition cont (f : nat) params (st : list expr) (e : expr) (r : str) : res (option expr * str) :=
  let s := wsp r in
  match operator_at E s with
  | Some (o, r) => ce E f params (shift st (Some e) o) r
  | None => Ok (Some (unwind st e), s)
  end.
Lemma ce_operand f params st s e r : is_unary e = false ->
  operand_at E (ce E f None []) f params s = Ok (Some e, r) -> ce E (S f) params st s = cont f params st e r.
Proof. intros U H. cbn [ce]. rewrite H. cbn [rbind]. rewrite U. reflexivity. Qed.
Lemma ce_unary f params st s o r :
  operand_at E (ce E f None []) f params s = Ok (Some (XUn o []), r) ->
  ce E (S f) params st s = ce E f params (shift st None (XUn o [])) r.
Proof. intros H. cbn [ce]. rewrite H. reflexivity. Qed.
Lemma operand_ws rec f params w s : ws w -> operand_at E rec f params (w ++ s) = operand_at E rec f params s.
Proof. intros W. unfold operand_at. rewrite wsp_app by auto. reflexivity. Qed.
Lemma ce_ws f params st w s : ws w -> ce E f params st (w ++ s) = ce E f params st s.
Proof. intros W. destruct f; cbn [ce]; auto. rewrite operand_ws by auto. reflexivity. Qed.

(** the stack and the rest of the text fit an operand of level [n] *)
Definition fits (n : nat) (st : list expr) : Prop :=
  match st with [] => True | e :: _ => key e <= Z.of_nat n end.
Definition follows (n : nat) (r : str) : Prop :=
  dl r /\ match parse (lit "(") (wsp r) with Some _ => False | None => True end /\
  match operator_at E (wsp r) with Some (o, _) => key o <= Z.of_nat n + 1 | None => True end.

Definition PP (n : nat) (a : ast) (s : str) : Prop :=
  forall f params st r, fits n st -> follows n r -> (length (s ++ r) < f)%nat ->
  exists f', (length r < f')%nat /\ ce E f params st (s ++ r) = cont f' params st (obj a) r.

Lemma follows_le n m r : (n <= m)%nat -> follows n r -> follows m r.
Proof.
  intros L (D & P & F). split; [auto|split; [auto|]]. destruct (operator_at E (wsp r)) as [(o & r')|]; auto. lia.
Qed.
Lemma fits_le n m st : (n <= m)%nat -> fits n st -> fits m st.
Proof. intros L F. destruct st; cbn in *; auto. lia. Qed.

(** first character that is neither white space nor a colon *)
Definition hd_ok (s : str) : Prop := match s with c :: _ => c <> 32 /\ c <> 9 /\ c <> 58 | [] => False end.
Lemma wsp_hd_ok s r : hd_ok s -> wsp (s ++ r) = s ++ r.
Proof. destruct s as [|c s]; [contradiction|]. intros (A & B & _). apply wsp_hd; auto. Qed.
Lemma parse_colon s r (params : option (list (str * lit_))) (X Y : res (option lit_ * str)) f : hd_ok s -> Y = X ->
  match params, parse (lit ":") (s ++ r) with Some ps, Some r => f ps r | _, _ => Y end = X.
Proof.
  intros H ->. destruct s as [|c s]; [contradiction|]. cbn [app].
  change (lit ":") with [58]. rewrite parse_hd by apply H. destruct params; reflexivity.
Qed.
Lemma ident_hd_ok n : ident_text E n -> hd_ok n.
Proof.
  intros T. apply ident_hd in T as (c & r & -> & T). apply idstart_not in T as (T & _); auto.
  unfold reserved_char in T. cbn in *. repeat split; intros ->; apply T; auto 12.
Qed.

Lemma operand_lit rec f params l s r : literal_text E l s -> dl r ->
  operand_at E rec f params (s ++ r) = Ok (Some (XLit l), r).
Proof.
  intros H D. assert (hd_ok s) as Q. { destruct (literal_hd E OK l s H) as (c & t & -> & C). exact C. }
  unfold operand_at. rewrite wsp_hd_ok by auto. cbv zeta.
  rewrite (parse_colon s r params (parse_lit E (s ++ r))) by auto.
  rewrite (parse_lit_ok E OK l) by auto. reflexivity.
Qed.
(** an identifier that introduces no literal *)
Lemma operand_plain rec f params n r : plain E n -> dl r ->
  operand_at E rec f params (n ++ r) =
      if str_eqb n (lit "not") then
        if has_wsp r then Ok (Some (XUn ONot []), wsp r) else Err ValueError
      else if str_eqb n (lit "isof") then
        let! (e, r) := castlike rec BIsOf (wsp r) in opt_or e (fun e => Ok (Some e, r))
      else if str_eqb n (lit "cast") then
        let! (e, r) := castlike rec BCast (wsp r) in opt_or e (fun e => Ok (Some e, r))
      else
        let r := wsp r in
        match parse (lit "(") r with
        | Some r =>
          if is_method n then
            let! (args, r) := call_args rec f r [] in Ok (Some (XCall n args), r)
          else Err ValueError
        | None => Ok (Some (XProp n), r)
        end.
Proof.
  intros P D. assert (hd_ok n) as Q by (apply ident_hd_ok, P).
  unfold operand_at. rewrite wsp_hd_ok by auto. cbv zeta.
  rewrite (parse_colon n r params (parse_lit E (n ++ r))) by auto.
  rewrite (parse_lit_plain E OK) by auto. cbn [rbind]. rewrite (ident_ok E OK) by (auto; apply P). reflexivity.
Qed.
Lemma plain_word n : (forall c, In c n -> 97 <= c <= 122) -> n <> [] -> ~ In n literal_words -> plain E n.
Proof.
  intros L N W. split; [|split].
  - apply (ident_word E OK); auto. intros c C. right. auto.
  - rewrite (lower_words E OK) by auto. auto.
  - intros ->. specialize (L 88). cbn in L. lia.
Qed.

Lemma cont_wsp f params st e r : cont f params st e (wsp r) = cont f params st e r.
Proof. unfold cont. rewrite wsp_idem. reflexivity. Qed.

(** reducing the operator on top of the stack *)
Lemma cont_reduce f params st e o r n : follows n r -> Z.of_nat n + 1 <= key o ->
  cont f params (o :: st) e r = cont f params st (add_operand o (Some e)) r.
Proof.
  intros (_ & _ & F) K. unfold cont. destruct (operator_at E (wsp r)) as [(p & r')|]; [|reflexivity].
  cbn [shift]. replace (key o <? key p) with false by (symmetry; apply Z.ltb_ge; lia). reflexivity.
Qed.
Lemma shift_top st o e : fits 0 [] -> match st with [] => True | x :: _ => key x < key o end ->
  shift st e o = match e with Some _ => add_operand o e | None => o end :: st.
Proof.
  intros _ H. destruct st as [|x st]; cbn [shift]; auto.
  replace (key x <? key o) with true by (symmetry; apply Z.ltb_lt; auto). reflexivity.
Qed.

Lemma inf_nan_app s r : dl r -> starts_inf_nan E (s ++ r) -> starts_inf_nan E s.
Proof.
  intros D H. destruct (Nat.le_gt_cases 3 (length s)) as [L|L].
  - unfold starts_inf_nan in *. rewrite firstn_app in H. replace (3 - length s)%nat with O in H by lia.
    cbn [firstn] in H. rewrite app_nil_r in H. exact H.
  - destruct r as [|c r]; [rewrite app_nil_r in H; exact H|]. exfalso.
    assert (In c (firstn 3 (s ++ c :: r))) as I.
    { rewrite firstn_app. apply in_or_app. right. destruct (3 - length s)%nat eqn:Q; [lia|]. cbn. auto. }
    apply (dl_cons E OK) in D as (_ & _ & _ & _ & D & B).
    apply (ok_lower_in E OK) in I; auto.
    assert (~ In (ascii_lower c) (lit "infan")) as N.
    { unfold ascii_lower, is_letter in *. destruct ((65 <=? c) && (c <=? 90)) eqn:Q; b2p; [exfalso; apply D; lia|].
      cbn. intros X. apply D. lia. }
    apply N. unfold starts_inf_nan in H. destruct H as [H|H]; rewrite H in I; cbn in *; tauto.
Qed.

Lemma obj_unary a : ~ is_negation a -> is_unary (obj a) = false.
Proof. destruct a; cbn; tauto. Qed.

Lemma hd_len s : hd_ok s -> (1 <= length s)%nat.
Proof. destruct s; cbn; [contradiction|lia]. Qed.

(** the end of a bracket *)
Lemma stop_bracket n w c r : ws w -> c = 41 \/ c = 44 -> follows n (w ++ c :: r) /\
  forall f st e, cont f None st e (w ++ c :: r) = Ok (Some (unwind st e), c :: r).
Proof.
  intros W C.
  assert (wsp (w ++ c :: r) = c :: r) as Q by (rewrite wsp_app by auto; apply wsp_hd; lia).
  assert (operator_at E (c :: r) = None) as O.
  { unfold operator_at. change (lit "/") with [47]. rewrite parse_hd by lia. rewrite (ident_none E); auto.
    apply (not_start E OK). left. destruct C; subst; cbn; auto 12. }
  split.
  - split; [|split].
    + apply ws_dl0; auto. cbn. destruct C; subst; auto 12.
    + rewrite Q. change (lit "(") with [40]. rewrite parse_hd by lia. auto.
    + rewrite Q, O. auto.
  - intros f st e. unfold cont. rewrite Q, O. reflexivity.
Qed.
Lemma stop_next n w r : ws w -> follows n r -> wsp r = r -> follows n (w ++ r).
Proof.
  intros W (D & P & F) Q. split; [apply ws_dl0; auto|]. rewrite wsp_app by auto. auto.
Qed.

Lemma operand_paren rec f params s e r : rec s = Ok (Some e, 41 :: r) ->
  operand_at E rec f params (40 :: s) = Ok (Some e, r).
Proof.
  intros H. unfold operand_at. rewrite (wsp_hd 40) by lia. cbv zeta.
  assert (idstart E 40 = false) as I by (apply (not_start E OK); left; cbn; auto 12).
  assert (parse_lit E (40 :: s) = Ok (None, 40 :: s)) as L.
  { unfold parse_lit. rewrite (ident_none E) by auto. reflexivity. }
  rewrite (parse_colon [40] s params (parse_lit E (40 :: s))) by (auto; cbn; lia).
  rewrite L. cbn [rbind]. rewrite (ident_none E) by auto.
  change (parse (lit "(") (40 :: s)) with (Some s). cbv iota. rewrite H. reflexivity.
Qed.

(** * Brackets around an operand at the outermost level *)
Lemma inner n a s w1 w2 c r f : PP n a s -> ws w1 -> ws w2 -> c = 41 \/ c = 44 ->
  (length (w1 ++ s ++ w2 ++ c :: r) < f)%nat ->
  ce E f None [] (w1 ++ s ++ w2 ++ c :: r) = Ok (Some (obj a), c :: r).
Proof.
  intros H W1 W2 C L. rewrite ce_ws by auto.
  destruct (stop_bracket n w2 c r W2 C) as (F & K).
  destruct (H f None [] (w2 ++ c :: r)) as (f' & _ & ->); auto.
  - cbn. auto.
  - rewrite app_length in L. lia.
  - rewrite K. reflexivity.
Qed.

Lemma quoted_literal q t : quoted q t -> literal_text E (LStr t) (39 :: q ++ [39]).
Proof. intros H. apply (lt_str E q t H). Qed.
Lemma quoted_PP n q t : quoted q t -> PP n (Lit (LStr t)) (39 :: q ++ [39]).
Proof.
  intros H f params st r _ (D & _) L. destruct f as [|f]; [lia|]. exists f. split.
  - rewrite app_length in L. cbn [length] in L. lia.
  - apply ce_operand; auto. apply operand_lit; auto. apply quoted_literal; auto.
Qed.

Lemma castlike_two f o a s w1 w2 w3 w4 q t w5 r : PP 1 a s -> ws w1 -> ws w2 -> ws w3 -> ws w4 -> ws w5 -> quoted q t ->
  Nat.le (length (w1 ++ 40 :: w2 ++ s ++ w3 ++ 44 :: w4 ++ (39 :: q ++ [39]) ++ w5 ++ 41 :: r)) f ->
  castlike (ce E f None []) o (w1 ++ 40 :: w2 ++ s ++ w3 ++ 44 :: w4 ++ (39 :: q ++ [39]) ++ w5 ++ 41 :: r)
    = Ok (Some (XBin o [Some (obj a); Some (XLit (LStr t))]), r).
Proof.
  intros H W1 W2 W3 W4 W5 Q L. unfold castlike. rewrite wsp_app by auto. rewrite wsp_hd by lia.
  match goal with |- context [parse (lit "(") (40 :: ?x)] => change (parse (lit "(") (40 :: x)) with (Some x) end.
  cbv iota. rewrite app_length in L. cbn [length] in L.
  rewrite (inner 1 a s w2 w3 44 _ f); auto; [|lia].
  cbn [rbind opt_or]. rewrite wsp_hd by lia. change (lit ")") with [41]. rewrite parse_hd by lia.
  match goal with |- context [parse (lit ",") (44 :: ?x)] => change (parse (lit ",") (44 :: x)) with (Some x) end.
  cbn [opt_or]. rewrite wsp_app by auto.
  assert (wsp ((39 :: q ++ [39]) ++ w5 ++ 41 :: r) = [] ++ (39 :: q ++ [39]) ++ w5 ++ 41 :: r) as -> by reflexivity.
  rewrite (inner 1 (Lit (LStr t)) (39 :: q ++ [39]) [] w5 41 r f); auto.
  - apply quoted_PP; auto.
  - intros c [].
  - cbn [app length]. repeat (rewrite app_length in L || cbn [length] in L).
    repeat (rewrite app_length || cbn [length]). lia.
Qed.
Lemma castlike_one f o w1 w4 q t w5 r : ws w1 -> ws w4 -> ws w5 -> quoted q t ->
  Nat.le (length (w1 ++ 40 :: w4 ++ (39 :: q ++ [39]) ++ w5 ++ 41 :: r)) f ->
  castlike (ce E f None []) o (w1 ++ 40 :: w4 ++ (39 :: q ++ [39]) ++ w5 ++ 41 :: r)
    = Ok (Some (XBin o [Some (XLit (LStr t))]), r).
Proof.
  intros W1 W4 W5 Q L. unfold castlike. rewrite wsp_app by auto. rewrite wsp_hd by lia.
  match goal with |- context [parse (lit "(") (40 :: ?x)] => change (parse (lit "(") (40 :: x)) with (Some x) end.
  cbv iota. rewrite app_length in L. cbn [length] in L.
  rewrite (inner 1 (Lit (LStr t)) (39 :: q ++ [39]) w4 w5 41 _ f); auto; try (apply quoted_PP; auto); try lia.
Qed.

Definition QQ (args : list ast) (s : str) : Prop :=
  forall f k acc r, Nat.lt (length (s ++ 41 :: r)) f -> (length s < k)%nat ->
  call_args (ce E f None []) k (s ++ 41 :: r) acc = Ok (acc ++ map (fun a => Some (obj a)) args, r).

Lemma method_plain m : method_name m -> plain E m /\ is_method m = true
  /\ str_eqb m (lit "not") = false /\ str_eqb m (lit "isof") = false /\ str_eqb m (lit "cast") = false.
Proof.
  intros H. unfold method_name in H. cbn [In] in H.
  assert (forall w, w <> [] -> forallb (fun c => (97 <=? c) && (c <=? 122)) w = true -> existsb (str_eqb w) literal_words = false -> plain E w) as W.
  { intros w N A B. apply plain_word; auto.
    - intros c C. rewrite forallb_forall in A. specialize (A c C). b2p. lia.
    - intros I. apply Bool.not_true_iff_false in B. apply B. apply existsb_exists. exists w. split; auto. apply str_eqb_refl. }
  repeat (destruct H as [<-|H]; [split; [apply W; [discriminate|reflexivity|reflexivity]|repeat split]|]). contradiction.
Qed.
Lemma kw_plain n : In n [lit "not"; lit "isof"; lit "cast"] -> plain E n.
Proof.
  intros H. cbn [In] in H.
  assert (forall w, w <> [] -> forallb (fun c => (97 <=? c) && (c <=? 122)) w = true -> existsb (str_eqb w) literal_words = false -> plain E w) as W.
  { intros w N A B. apply plain_word; auto.
    - intros c C. rewrite forallb_forall in A. specialize (A c C). b2p. lia.
    - intros I. apply Bool.not_true_iff_false in B. apply B. apply existsb_exists. exists w. split; auto. apply str_eqb_refl. }
  destruct H as [<-|[<-|[<-|[]]]]; (apply W; [discriminate|reflexivity|reflexivity]).
Qed.
Lemma oname_ident o : ident_text E (oname o).
Proof.
  apply (ident_word E OK).
  - intros c C. right. destruct o; cbn in C; intuition lia.
  - destruct o; discriminate.
Qed.
Lemma op_from_oname o : op_from_str (oname o) = Some (obin o).
Proof. destruct o; reflexivity. Qed.
Lemma prec_level o : prec_bin (obin o) = Z.of_nat (level o) + 1.
Proof. destruct o; reflexivity. Qed.
Lemma level_bounds o : (1 <= level o <= 6)%nat.
Proof. destruct o; cbn; lia. Qed.
Lemma operator_name o w r : ws1 w -> operator_at E (oname o ++ w ++ r) = Some (XBin (obin o) [], w ++ r).
Proof.
  intros W. unfold operator_at.
  assert (parse (lit "/") (oname o ++ w ++ r) = None) as ->.
  { destruct (ident_hd E _ (oname_ident o)) as (c & t & Q & C). rewrite Q. cbn [app].
    apply parse_hd. apply idstart_not in C as (C & _); auto. intros ->. apply C. left. cbn. auto 12. }
  rewrite (ident_ok E OK) by (apply oname_ident || apply ws_dl; auto). rewrite op_from_oname. reflexivity.
Qed.

Lemma G_ne full n a s : G E full n a s -> hd_ok s.
Proof.
  induction 1; try (cbn; lia).
  - destruct (literal_hd E OK _ _ H) as (c & t & -> & C). exact C.
  - apply ident_hd_ok, H.
  - destruct s1; [contradiction|exact IHG1].
  - destruct s; [contradiction|exact IHG].
  - destruct k; cbn; lia.
  - destruct k; cbn; lia.
  - unfold method_name in H0. cbn [In] in H0.
    repeat (destruct H0 as [<-|H0]; [cbn; lia|]). contradiction.
Qed.

Lemma operand_neg rec f params s : ~ starts_number s -> ~ starts_inf_nan E s ->
  operand_at E rec f params (45 :: s) = Ok (Some (XUn ONeg []), s).
Proof.
  intros N I. unfold operand_at. rewrite (wsp_hd 45) by lia. cbv zeta.
  assert (idstart E 45 = false) as J by (apply (not_start E OK); left; cbn; auto 12).
  assert (parse_numeric E (45 :: s) = None) as P.
  { unfold parse_numeric. change (parse (lit "-") (45 :: s)) with (Some s). cbv iota.
    assert (forall l, length l = 3%nat -> lower E (firstn 3 s) <> l -> parse_insens E l s = None) as PI.
    { intros l L Q. unfold parse_insens. rewrite L, str_neq; auto. }
    rewrite (PI (lit "inf")), (PI (lit "nan")); auto; try (intros Q; apply I; unfold starts_inf_nan; tauto).
    assert (span is_digit s = ([], s)) as ->.
    { destruct s as [|c s]; auto. cbn. destruct (is_digit c) eqn:D; auto. apply is_digit_spec in D.
      elim N. exists c, s. auto. }
    assert (parse (lit ".") s = None) as ->; [|reflexivity].
    destruct s as [|c s]; auto. apply parse_hd. intros ->. apply N. exists 46, s. auto. }
  rewrite (parse_colon [45] s params (parse_lit E (45 :: s))) by (auto; cbn; lia).
  rewrite (parse_lit_num E) by auto. rewrite P. cbn [rbind]. rewrite (ident_none E) by auto. reflexivity.
Qed.

Scheme G_min := Minimality for G Sort Prop with Gargs_min := Minimality for Gargs Sort Prop.
Combined Scheme G_both from G_min, Gargs_min.

Theorem parse_complete :
  (forall n a s, G E false n a s -> (n <= 8)%nat -> PP n a s) /\ (forall l s, Gargs E false l s -> QQ l s).
Proof.
  apply (G_both E false (fun n a s => (n <= 8)%nat -> PP n a s) QQ).
  - (* literal *) intros n l s H _ f params st r _ (D & _) L. destruct f as [|f]; [lia|]. exists f.
    rewrite app_length in L.
    assert (1 <= length s)%nat by (apply hd_len; destruct (literal_hd E OK l s H) as (c & t & -> & C); exact C).
    split; [lia|]. apply ce_operand; auto. apply operand_lit; auto.
  - (* property *) intros n p H _ f params st r _ (D & Q & _) L. destruct f as [|f]; [lia|]. exists f.
    rewrite app_length in L. assert (1 <= length p)%nat by (apply hd_len, ident_hd_ok, H).
    split; [lia|]. rewrite <- cont_wsp. apply ce_operand; auto.
    rewrite operand_plain by (auto; apply property_plain; auto).
    destruct H as (_ & R). unfold reserved in R. cbn [In] in R.
    rewrite !str_neq by (intros X; apply R; right; rewrite X; auto). cbv zeta.
    destruct (parse (lit "(") (wsp r)); [contradiction|]. reflexivity.
  - (* brackets *) intros n a w1 s w2 W1 W2 _ IH U _ f params st r _ (D & _) L.
    destruct f as [|f]; [lia|]. exists f. rewrite app_length in L. split; [cbn in L; lia|].
    apply ce_operand; [apply obj_unary; auto|].
    replace ((lit "(" ++ w1 ++ s ++ w2 ++ lit ")") ++ r) with (40 :: w1 ++ s ++ w2 ++ 41 :: r)
      by (cbn [lit app]; rewrite <- !app_assoc; reflexivity).
    apply operand_paren. apply inner with (n := 1%nat); auto; [apply IH; lia|].
    cbn [lit length app] in L. repeat (rewrite app_length in L || cbn [length] in L).
    repeat (rewrite app_length || cbn [length]). lia.
  - (* minus *) intros n a w s N W H IH SN SI L8 f params st r Fi Fo L.
    destruct f as [|f]; [lia|].
    replace ((lit "-" ++ w ++ s) ++ r) with (45 :: (w ++ s) ++ r) in * by reflexivity.
    assert (hd_ok s) as Hs by (eapply G_ne; eauto).
    rewrite (ce_unary f params st _ ONeg ((w ++ s) ++ r)).
    2:{ apply operand_neg.
        - intros (c & t & Q & C). apply SN. destruct (w ++ s) as [|d x] eqn:X; [destruct w; [cbn in X; subst; contradiction|discriminate]|].
          cbn in Q. inversion Q; subst. exists c, x. auto.
        - intros X. apply inf_nan_app in X; [|apply Fo]. exact (SI eq_refl X). }
    rewrite shift_top by (cbn; auto; destruct st as [|x st]; auto; cbn in *; unfold unary_level in *; lia).
    rewrite <- app_assoc, ce_ws by auto.
    cbn [app length] in L. rewrite !app_length in L.
    destruct (IH (le_n 8) f params (XUn ONeg [] :: st) r) as (f' & L' & ->); auto.
    + cbn. lia.
    + eapply follows_le; [|exact Fo]. unfold primary_level, unary_level in *. lia.
    + rewrite app_length. lia.
    + exists f'. split; auto. rewrite (cont_reduce f' params st (obj a) _ r n); auto.
      cbn. unfold unary_level in *. lia.
  - (* not *) intros n a w s N W H IH L8 f params st r Fi Fo L.
    destruct f as [|f]; [lia|].
    rewrite <- !app_assoc in *.
    rewrite (ce_unary f params st _ ONot (wsp (w ++ s ++ r))).
    2:{ rewrite operand_plain; [|apply kw_plain; cbn; auto|apply ws_dl; auto].
        change (str_eqb (lit "not") (lit "not")) with true. cbv iota.
        assert (has_wsp (w ++ s ++ r) = true) as ->; auto.
        destruct W as (W & Wn). destruct w as [|c w]; [congruence|]. cbn. destruct (W c); [cbn; auto| |]; subst; reflexivity. }
    rewrite shift_top by (cbn; auto; destruct st as [|x st]; auto; cbn in *; unfold unary_level in *; lia).
    assert (hd_ok s) as Hs by (eapply G_ne; eauto).
    rewrite wsp_app by apply W. rewrite wsp_hd_ok by auto.
    rewrite !app_length in L. cbn [length lit] in L.
    destruct (IH (le_n 8) f params (XUn ONot [] :: st) r) as (f' & L' & ->); auto.
    + cbn. lia.
    + eapply follows_le; [|exact Fo]. unfold primary_level, unary_level in *. lia.
    + rewrite app_length. lia.
    + exists f'. split; auto. rewrite (cont_reduce f' params st (obj a) _ r n); auto.
      cbn. unfold unary_level in *. lia.
  - (* binary *) intros n o a b s1 w1 w2 s2 N W1 W2 H1 IH1 H2 IH2 L8 f params st r Fi Fo L.
    rewrite <- !app_assoc in *. rewrite !app_length in L.
    destruct (IH1 ltac:(pose proof (level_bounds o); lia) f params st (w1 ++ oname o ++ w2 ++ s2 ++ r)) as (f1 & L1 & ->).
    + eapply fits_le; [|exact Fi]. auto.
    + assert (wsp (w1 ++ oname o ++ w2 ++ s2 ++ r) = oname o ++ w2 ++ s2 ++ r) as Q.
      { rewrite wsp_app by apply W1. apply (wsp_id E OK), oname_ident. }
      split; [apply ws_dl; auto|split].
      * rewrite Q. destruct o; exact I.
      * rewrite Q, operator_name by auto. cbn [key sortkey]. rewrite prec_level. lia.
    + rewrite !app_length. lia.
    + rewrite !app_length in L1.
      assert (cont f1 params st (obj a) (w1 ++ oname o ++ w2 ++ s2 ++ r) =
              ce E f1 params (XBin (obin o) [Some (obj a)] :: st) (s2 ++ r)) as ->.
      { unfold cont. rewrite wsp_app by apply W1. rewrite (wsp_id E OK) by apply oname_ident.
        rewrite operator_name by auto. rewrite ce_ws by apply W2. rewrite shift_top; [reflexivity|cbn; auto|].
        destruct st as [|x st]; auto. cbn in Fi. cbn [key sortkey]. rewrite prec_level. lia. }
      destruct (IH2 ltac:(pose proof (level_bounds o); lia) f1 params (XBin (obin o) [Some (obj a)] :: st) r) as (f2 & L2 & ->).
      * cbn [fits key sortkey]. rewrite prec_level. lia.
      * eapply follows_le; [|exact Fo]. lia.
      * rewrite app_length. lia.
      * exists f2. split; auto. rewrite (cont_reduce f2 params st (obj b) _ r n); auto.
        cbn [key sortkey]. rewrite prec_level. lia.
  - (* member *) intros n a p s w1 w2 N W1 W2 H IH P L8 f params st r Fi Fo L.
    rewrite <- !app_assoc in *. rewrite !app_length in L. cbn [lit length app] in L.
    assert (wsp (w1 ++ lit "/" ++ w2 ++ p ++ r) = 47 :: w2 ++ p ++ r) as Q.
    { rewrite wsp_app by auto. reflexivity. }
    destruct (IH (le_n 8) f params st (w1 ++ lit "/" ++ w2 ++ p ++ r)) as (f1 & L1 & ->).
    + eapply fits_le; [|exact Fi]. auto.
    + split; [apply ws_dl0; [auto|cbn; auto 12]|]. rewrite Q. split; [exact I|].
      change (operator_at E (47 :: w2 ++ p ++ r)) with (Some (XBin BMember [], w2 ++ p ++ r)). cbn. lia.
    + rewrite !app_length. cbn [length lit]. lia.
    + rewrite !app_length in L1. cbn [length lit] in L1.
      assert (cont f1 params st (obj a) (w1 ++ lit "/" ++ w2 ++ p ++ r) =
              ce E f1 params (XBin BMember [Some (obj a)] :: st) (p ++ r)) as ->.
      { unfold cont. rewrite Q. change (operator_at E (47 :: w2 ++ p ++ r)) with (Some (XBin BMember [], w2 ++ p ++ r)).
        cbv iota. rewrite ce_ws by auto. rewrite shift_top; [reflexivity|cbn; auto|].
        destruct st as [|x st]; auto. cbn in Fi. cbn [key sortkey prec_bin]. unfold primary_level in N. lia. }
      destruct f1 as [|f2]; [lia|]. exists f2. assert (1 <= length p)%nat by (apply hd_len, ident_hd_ok, P). split; [lia|].
      destruct Fo as (D & Pa & Op).
      rewrite (ce_operand f2 params _ (p ++ r) (XProp p) (wsp r)); auto.
      * rewrite cont_wsp. rewrite (cont_reduce f2 params st (XProp p) _ r n); [reflexivity| |].
        -- split; auto.
        -- cbn. unfold primary_level in N. lia.
      * rewrite operand_plain by (auto; apply property_plain; auto).
        destruct P as (_ & R). unfold reserved in R. cbn [In] in R.
        rewrite !str_neq by (intros X; apply R; right; rewrite X; auto). cbv zeta.
        destruct (parse (lit "(") (wsp r)); [contradiction|]. reflexivity.
  - (* cast, isof *) intros n k a t w1 w2 s w3 w4 q w5 W1 W2 W3 W4 W5 H IH Q L8 f params st r _ Fo L.
    destruct f as [|f]; [lia|]. exists f.
    assert (((if k then lit "cast" else lit "isof") ++ w1 ++ lit "(" ++ w2 ++ s ++ w3 ++ lit "," ++ w4
       ++ lit "'" ++ q ++ lit "'" ++ w5 ++ lit ")") ++ r =
      (if k then lit "cast" else lit "isof") ++ w1 ++ 40 :: w2 ++ s ++ w3 ++ 44 :: w4 ++ (39 :: q ++ [39]) ++ w5 ++ 41 :: r) as EQ.
    { repeat first [rewrite <- app_assoc | progress (cbn [lit app])]. reflexivity. }
    rewrite EQ in *. rewrite app_length in L.
    assert (length (if k then lit "cast" else lit "isof") = 4%nat) as L4 by (destruct k; reflexivity). rewrite L4 in L.
    split.
    + repeat (rewrite app_length in L || cbn [length] in L). lia.
    + assert (operand_at E (ce E f None []) f params ((if k then lit "cast" else lit "isof") ++ w1 ++ 40 :: w2 ++ s ++ w3 ++ 44 :: w4 ++ (39 :: q ++ [39]) ++ w5 ++ 41 :: r)
        = Ok (Some (XBin (if k then BCast else BIsOf) [Some (obj a); Some (XLit (LStr t))]), r)) as O.
      { rewrite operand_plain.
        - assert (forall o, castlike (ce E f None []) o (wsp (w1 ++ 40 :: w2 ++ s ++ w3 ++ 44 :: w4 ++ (39 :: q ++ [39]) ++ w5 ++ 41 :: r))
             = Ok (Some (XBin o [Some (obj a); Some (XLit (LStr t))]), r)) as C.
          { intros o. rewrite wsp_app by auto. rewrite (wsp_hd 40) by lia.
            apply (castlike_two f o a s [] w2 w3 w4 q t w5 r); auto; [apply IH; lia|intros c []|].
            rewrite app_length in L. rewrite app_nil_l. lia. }
          rewrite !C. destruct k; reflexivity.
        - apply kw_plain. destruct k; cbn; auto.
        - apply ws_dl0; auto. cbn. auto. }
      erewrite ce_operand; [| |exact O]; [|reflexivity]. destruct k; reflexivity.
  - (* with one operand *) intros n k t w1 w4 q w5 W1 W4 W5 Q L8 f params st r _ Fo L.
    destruct f as [|f]; [lia|]. exists f.
    assert (((if k then lit "cast" else lit "isof") ++ w1 ++ lit "(" ++ w4
       ++ lit "'" ++ q ++ lit "'" ++ w5 ++ lit ")") ++ r =
      (if k then lit "cast" else lit "isof") ++ w1 ++ 40 :: w4 ++ (39 :: q ++ [39]) ++ w5 ++ 41 :: r) as EQ.
    { repeat first [rewrite <- app_assoc | progress (cbn [lit app])]. reflexivity. }
    rewrite EQ in *. rewrite app_length in L.
    assert (length (if k then lit "cast" else lit "isof") = 4%nat) as L4 by (destruct k; reflexivity). rewrite L4 in L.
    split.
    + repeat (rewrite app_length in L || cbn [length] in L). lia.
    + assert (operand_at E (ce E f None []) f params ((if k then lit "cast" else lit "isof") ++ w1 ++ 40 :: w4 ++ (39 :: q ++ [39]) ++ w5 ++ 41 :: r)
        = Ok (Some (XBin (if k then BCast else BIsOf) [Some (XLit (LStr t))]), r)) as O.
      { rewrite operand_plain.
        - assert (forall o, castlike (ce E f None []) o (wsp (w1 ++ 40 :: w4 ++ (39 :: q ++ [39]) ++ w5 ++ 41 :: r))
             = Ok (Some (XBin o [Some (XLit (LStr t))]), r)) as C.
          { intros o. rewrite wsp_app by auto. rewrite (wsp_hd 40) by lia.
            apply (castlike_one f o [] w4 q t w5 r); auto; [intros c []|].
            rewrite app_length in L. rewrite app_nil_l. lia. }
          rewrite !C. destruct k; reflexivity.
        - apply kw_plain. destruct k; cbn; auto.
        - apply ws_dl0; auto. cbn. auto. }
      erewrite ce_operand; [| |exact O]; [|reflexivity]. destruct k; reflexivity.
  - (* call *) intros n m w s args W M H IH L8 f params st r _ Fo L.
    destruct f as [|f]; [lia|]. exists f. destruct (method_plain m M) as (Mp & Mm & M1 & M2 & M3).
    assert ((m ++ w ++ lit "(" ++ s ++ lit ")") ++ r = m ++ w ++ 40 :: s ++ 41 :: r) as EQ.
    { repeat first [rewrite <- app_assoc | progress (cbn [lit app])]. reflexivity. }
    rewrite EQ in *. repeat (rewrite app_length in L || cbn [length] in L). split; [lia|].
    apply ce_operand; auto. rewrite operand_plain; auto.
    + rewrite M1, M2, M3. cbv zeta. rewrite wsp_app by auto. rewrite (wsp_hd 40) by lia.
      match goal with |- context [parse (lit "(") (40 :: ?x)] => change (parse (lit "(") (40 :: x)) with (Some x) end.
      cbv iota. rewrite Mm. rewrite IH; [reflexivity| |].
      * repeat (rewrite app_length || cbn [length]). lia.
      * lia.
    + apply ws_dl0; auto. cbn. auto.
  - (* one argument *) intros a w1 s w2 W1 W2 H IH f k acc r L K. destruct k as [|k]; [lia|].
    cbn [call_args]. rewrite <- !app_assoc in *.
    rewrite wsp_app by auto. assert (hd_ok s) as Hs by (eapply G_ne; eauto). rewrite wsp_hd_ok by auto.
    change (s ++ w2 ++ 41 :: r) with ([] ++ s ++ w2 ++ 41 :: r).
    assert (ce E f None [] ([] ++ s ++ w2 ++ 41 :: r) = Ok (Some (obj a), 41 :: r)) as ->.
    { apply (inner 1); auto; [apply IH; lia|intros c []|rewrite app_length in L; rewrite app_nil_l; unfold Nat.lt in L; lia]. }
    cbn [rbind opt_or]. rewrite (wsp_hd 41) by lia. reflexivity.
  - (* more arguments *) intros a w1 s w2 l s' W1 W2 H IH Hl IHl f k acc r L K. destruct k as [|k]; [lia|].
    cbn [call_args]. rewrite <- !app_assoc in *.
    rewrite wsp_app by auto. assert (hd_ok s) as Hs by (eapply G_ne; eauto). rewrite wsp_hd_ok by auto.
    change (s ++ w2 ++ lit "," ++ s' ++ 41 :: r) with ([] ++ s ++ w2 ++ 44 :: s' ++ 41 :: r).
    assert (ce E f None [] ([] ++ s ++ w2 ++ 44 :: s' ++ 41 :: r) = Ok (Some (obj a), 44 :: s' ++ 41 :: r)) as ->.
    { apply (inner 1); auto; [apply IH; lia|intros c []|rewrite app_length in L; rewrite app_nil_l; unfold Nat.lt in L].
      change (lit "," ++ s' ++ 41 :: r) with (44 :: s' ++ 41 :: r) in L. lia. }
    cbn [rbind opt_or]. rewrite (wsp_hd 44) by lia.
    match goal with |- context [parse (lit ",") (44 :: ?x)] => change (parse (lit ",") (44 :: x)) with (Some x) end.
    cbv iota. repeat (rewrite app_length in L || cbn [length lit] in L).
    repeat (rewrite app_length in K || cbn [length lit] in K).
    rewrite IHl by (repeat (rewrite app_length || cbn [length]); lia).
    rewrite <- app_assoc. reflexivity.
Qed.
End Parse.
