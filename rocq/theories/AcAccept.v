(** Property C134: exactly which Accept headers are read, and as what. *)
From Coq Require Import Lia String.
From Verif Require Import AnModel Py Num UriModel UriRel HttpModel HttpSpec HttpProofs HttpLex HttpProps HttpParamModel HttpParamSpec HttpParamProofs HttpParamMain HttpParamParsed HttpParamProps HttpParamAccept AnSpec AnProofs AcModel AcSpec AcProofs AcProps.
Open Scope Z_scope.

(** ** The grammar, in words (see c38_words for the words of a text) *)
(** a quality: digits, or digits with one to three decimals; more than 1 is 1 *)
Definition at_most_one (q : Z) : Z := Z.min 1000 q.
Inductive quality_word : str -> Z -> Prop :=
| qw_whole a : a <> [] -> Forall dec_digit a -> quality_word a (at_most_one (1000 * decimal a))
| qw_parts a b : a <> [] -> b <> [] -> Forall dec_digit a -> Forall dec_digit b -> (List.length b <= 3)%nat ->
    quality_word (a ++ 46 :: b) (at_most_one (1000 * decimal a + decimal b * 10 ^ (3 - Z.of_nat (List.length b)))).
Definition q_name (n : str) : Prop := n = lit "q" \/ n = lit "Q".
Definition quality_words (ws : list word) (q : Z) : Prop := exists n w, ws = [WByte 59; WStr n; WByte 61; WStr w] /\ q_name n /\ quality_word w q.
Definition range_words (ws : list word) (m : mediatype) : Prop := exists t u P ps, ws = WStr t :: WByte 47 :: WStr u :: P /\ token t /\ token u /\ ascii_str t /\ ascii_str u /\
  params_words false P ps /\ Forall (fun p => ~ q_name (fst p)) ps /\ m = mkmt (b_lower t) (b_lower u) (dict_of ps).
Inductive item_grammar : list word -> aitem -> Prop :=
| ig_plain R m : range_words R m -> item_grammar R (AI m 1000 [])
| ig_quality R m Q q E es : range_words R m -> quality_words Q q -> params_words false E es -> item_grammar (R ++ Q ++ E) (AI m q (dict_of es)).
Inductive token_grammar : list word -> atok -> Prop :=
| tg_plain t : token t -> ascii_str t -> token_grammar [WStr t] (AT t 1000)
| tg_quality t Q q : token t -> ascii_str t -> quality_words Q q -> token_grammar (WStr t :: Q) (AT t q).
(** items with commas; one more comma may follow the last *)
Inductive list_grammar {A} (item : list word -> A -> Prop) : list word -> list A -> Prop :=
| lg_last W a : item W a -> list_grammar item W [a]
| lg_comma W a : item W a -> list_grammar item (W ++ [WByte 44]) [a]
| lg_more W a r l : item W a -> list_grammar item r l -> list_grammar item (W ++ WByte 44 :: r) (a :: l).

(** ** q-values *)
Lemma lower_q : forall n, str_eqb (u_lower n) (lit "q") = true <-> q_name n.
Proof.
  intros n. split; [|intros [->| ->]; reflexivity]. intros H. apply str_eqb_eq in H. destruct n as [|c [|d n]]; [discriminate| |discriminate]. unfold u_lower in H. cbn [map] in H. change (lit "q") with [113] in H. assert (E : lower_u c = 113) by congruence. clear H. unfold lower_u in E.
  destruct ((65 <=? c) && (c <=? 90)) eqn:E1; cbn [orb] in E; [right; change (lit "Q") with [81]; f_equal; lia|]. destruct ((192 <=? c) && (c <=? 222) && negb (c =? 215)) eqn:E2; [b2p; lia|]. left. change (lit "q") with [113]. f_equal. exact E.
Qed.
Lemma dec_no_dot : forall a, Forall dec_digit a -> ~ In 46 a.
Proof. intros a F X. rewrite Forall_forall in F. apply F in X. unfold dec_digit in X. lia. Qed.
Lemma decimal_pad : forall b n, decimal (b ++ repeat 48 n) = decimal b * 10 ^ Z.of_nat n.
Proof.
  intros b n. rewrite decimal_app, repeat_length. assert (Z0 : decimal (repeat 48 n) = 0) by (induction n as [|n IH]; [reflexivity|]; cbn [repeat decimal]; rewrite IH; lia). lia.
Qed.
Lemma cap : forall q, (if 1000 <? q then 1000 else q) = at_most_one q.
Proof. intros q. unfold at_most_one. destruct (Z.ltb_spec 1000 q); lia. Qed.
Lemma quality_complete : forall w q r, quality_word w q -> parse_qvalue (WStr w :: r) = Ok (Some q, r).
Proof.
  intros w q r H. assert (T : token w /\ exists v, to_q w = Ok (Some v) /\ q = at_most_one v).
  { destruct H as [a N F|a b Na Nb Fa Fb L].
    - split; [apply digits_token; assumption|]. exists (1000 * decimal a). split; [|reflexivity]. unfold to_q. rewrite split_no by (apply dec_no_dot; exact F). rewrite is_digits_ok by assumption. reflexivity.
    - split.
      + split; [destruct a; discriminate|]. apply Forall_app. split; [|constructor].
        * eapply Forall_impl; [|exact Fa]. intros c Hc. apply (digit_tok c Hc).
        * apply is_tok_tok. reflexivity.
        * eapply Forall_impl; [|exact Fb]. intros c Hc. apply (digit_tok c Hc).
      + eexists. split; [|reflexivity]. unfold to_q. rewrite split_app, split_no by (apply dec_no_dot; assumption). rewrite !is_digits_ok by assumption. cbn [andb]. apply Nat.leb_le in L as L2. rewrite L2.
        rewrite decimal_pad. do 4 f_equal. rewrite Nat2Z.inj_sub by exact L. reflexivity. }
  destruct T as [T (v & E & ->)]. unfold parse_qvalue. rewrite (parse_token_ok w r T), E. cbn [rbind]. rewrite cap. reflexivity.
Qed.
Lemma quality_inv : forall l q r, parse_qvalue l = Ok (Some q, r) -> exists w, l = WStr w :: r /\ quality_word w q.
Proof.
  intros l q r H. unfold parse_qvalue in H. destruct (parse_token l) as [[w|] l1] eqn:E; [|discriminate]. apply parse_tok_inv in E. subst l. exists w.
  unfold to_q in H. assert (J : join_on 46 (split_on 46 w) = w) by apply join_split. destruct (split_on 46 w) as [|a [|b [|c x]]] eqn:Sp; [discriminate| | |discriminate].
  - destruct (is_digits a) eqn:D; [|discriminate]. cbn [rbind] in H. rewrite cap in H. assert (X : at_most_one (1000 * decimal a) = q /\ l1 = r) by (split; congruence). destruct X as [<- ->]. split; [reflexivity|].
    cbn [join_on] in J. subst w. apply is_digits_inv in D as [N F]. constructor; assumption.
  - destruct (is_digits a) eqn:Da; [|discriminate]. destruct (is_digits b) eqn:Db; [|discriminate]. cbn [andb] in H. destruct (List.length b <=? 3)%nat eqn:L; [|discriminate]. cbn [rbind] in H. rewrite cap in H. apply Nat.leb_le in L.
    rewrite decimal_pad, Nat2Z.inj_sub in H by exact L. assert (X : at_most_one (1000 * decimal a + decimal b * 10 ^ (Z.of_nat 3 - Z.of_nat (List.length b))) = q /\ l1 = r) by (split; congruence). destruct X as [<- ->]. split; [reflexivity|].
    cbn [join_on] in J. subst w. apply is_digits_inv in Da as [Na Fa]. apply is_digits_inv in Db as [Nb Fb]. apply (qw_parts a b); assumption.
Qed.
Lemma q_name_token : forall n, q_name n -> token n /\ ascii n = Ok n.
Proof. intros n [->| ->]; (split; [apply lit_token; [discriminate|reflexivity]|reflexivity]). Qed.
Lemma require_q_complete : forall Q q r, quality_words Q q -> exists Q', Q = WByte 59 :: Q' /\ require_q (Q' ++ r) = Ok (q, r).
Proof.
  intros Q q r (n & w & -> & Hn & Hw). eexists. split; [reflexivity|]. destruct (q_name_token n Hn) as [T A]. unfold require_q. cbn [app]. rewrite parse_sp_str, (require_token_ok n _ T). cbn [rbind]. rewrite A. cbn [rbind].
  apply lower_q in Hn. rewrite Hn. cbn [negb]. change (require_separator 61 (parse_sp (WByte 61 :: ?x))) with (Ok x). cbn [rbind]. rewrite parse_sp_str, (quality_complete w q r Hw). reflexivity.
Qed.
Lemma require_q_inv : forall l q r, spaces_ok false l -> require_q l = Ok (q, r) -> exists n w, l = WStr n :: WByte 61 :: WStr w :: r /\ q_name n /\ quality_word w q.
Proof.
  intros l q r Sp H. unfold require_q in H. rewrite (spaces_false l Sp) in H. destruct (require_token l) as [[n l1]|] eqn:E1; [|discriminate]. cbn [rbind] in H. apply req_tok_inv in E1. subst l.
  destruct (ascii n) as [n'|] eqn:A; [|discriminate]. cbn [rbind] in H. apply HttpParamAccept.ascii_inv in A as [-> _]. destruct (str_eqb (u_lower n) (lit "q")) eqn:Q; [|discriminate]. cbn [negb] in H. apply lower_q in Q.
  apply (spaces_app false [WStr n]) in Sp. rewrite (spaces_false l1 Sp) in H. destruct (require_separator 61 l1) as [l2|] eqn:E2; [|discriminate]. cbn [rbind] in H. apply req_sep_inv in E2. subst l1.
  apply (spaces_app false [WByte 61]) in Sp. rewrite (spaces_false l2 Sp) in H. destruct (parse_qvalue l2) as [[[v|] l3]|] eqn:E3; [|discriminate..]. cbn [rbind] in H. inversion H; subst. apply quality_inv in E3 as (w & -> & Hw). exists n, w. repeat split; assumption.
Qed.

(** ** the parameters of a range: all but one that is called q *)
Lemma one_q : forall a l, fine l -> spaces_ok false l -> one_parameter a false (Some (lit "q")) l =
  match one_parameter true false None l with Some (k, n, v, r) => if str_eqb k (lit "q") then None else Some (k, n, v, r) | None => None end.
Proof.
  intros a l F Sp. unfold one_parameter. rewrite (spaces_false l Sp). destruct (require_separator 59 l) as [l1|] eqn:E1; [|reflexivity]. apply req_sep_inv in E1. subst l. apply (spaces_app false [WByte 59]) in Sp.
  rewrite (spaces_false l1 Sp). destruct (require_token l1) as [[n l2]|] eqn:E2; [|reflexivity]. apply req_tok_inv in E2. subst l1. apply (spaces_app false [WStr n]) in Sp. cbv zeta. change (negb (str_eqb (lit "q") [])) with true. cbn [andb].
  rewrite (spaces_false l2 Sp). destruct (str_eqb (u_lower n) (lit "q")) eqn:Q.
  - destruct (require_separator 61 l2) as [l3|] eqn:E3; [|reflexivity]. destruct (parse_token _) as [[v|] l4]; [rewrite Q; reflexivity|]. destruct (parse_quoted_word _) as [[v|] l5]; [rewrite Q; reflexivity|reflexivity].
  - replace (if a then l2 else l2) with l2 by (destruct a; reflexivity). destruct (require_separator 61 l2) as [l3|] eqn:E3; [|reflexivity]. apply req_sep_inv in E3. subst l2. apply (spaces_app false [WByte 61]) in Sp. rewrite (spaces_false l3 Sp).
    replace (if a then l3 else l3) with l3 by (destruct a; reflexivity). destruct (parse_token l3) as [[v|] l4]; [rewrite Q; reflexivity|]. destruct (parse_quoted_word l3) as [[v|] l5]; [rewrite Q; reflexivity|reflexivity].
Qed.
Definition not_q (p : str * str) : Prop := ~ q_name (fst p).
Lemma loop_inv_q : forall f d l d' r, fine l -> spaces_ok false l -> parameters_loop f false false (Some (lit "q")) d l = (d', r) ->
  exists P ps, l = P ++ r /\ params_words false P ps /\ Forall not_q ps /\ d' = set_all (map entry ps) d.
Proof.
  induction f as [|f IH]; intros d l d' r F Sp E; cbn [parameters_loop] in E; [inversion E; subst; exists [], []; repeat split; constructor|].
  rewrite (one_q false l F Sp) in E. destruct (one_parameter true false None l) as [[[[k n] v] l']|] eqn:E1; [|inversion E; subst; exists [], []; repeat split; constructor].
  destruct (str_eqb k (lit "q")) eqn:Q; [inversion E; subst; exists [], []; repeat split; constructor|].
  destruct (one_fine _ _ _ _ _ _ _ F E1) as [F' _]. destruct (one_inv false None l k n v l' F Sp E1 eq_refl) as (a & b & w & -> & Ha & Hb & T & V & ->).
  assert (S' : spaces_ok false l'). { apply spaces_app in Sp. apply (spaces_app false [WByte 59]) in Sp. apply spaces_app in Sp. apply (spaces_app false [WStr n; WByte 61; WStr w]) in Sp. exact Sp. }
  destruct (IH _ _ _ _ F' S' E) as (P & ps & -> & HP & HQ & ->). exists (a ++ WByte 59 :: b ++ WStr n :: WByte 61 :: WStr w :: P), ((n, v) :: ps). split; [|split; [|split; [|reflexivity]]].
  - rewrite <- !app_assoc. cbn [app]. rewrite <- !app_assoc. reflexivity.
  - constructor; assumption.
  - constructor; [|exact HQ]. unfold not_q. cbn [fst]. rewrite <- lower_q. congruence.
Qed.
Lemma one_complete_q : forall n w v r, token n -> value_word w v -> ~ q_name n -> one_parameter false false (Some (lit "q")) (WByte 59 :: WStr n :: WByte 61 :: WStr w :: r) = Some (u_lower n, n, v, r).
Proof.
  intros n w v r T V Q. unfold one_parameter. change (require_separator 59 (parse_sp (WByte 59 :: ?x))) with (Ok x). cbv iota beta. rewrite parse_sp_str, (require_token_ok n _ T). cbv iota beta zeta.
  change (negb (str_eqb (lit "q") [])) with true. cbn [andb]. destruct (str_eqb (u_lower n) (lit "q")) eqn:E; [apply lower_q in E; contradiction|]. change (require_separator 61 (WByte 61 :: ?x)) with (Ok x). cbv iota beta.
  destruct (value_parse w v r V) as [H|[[x H] H2]]; rewrite H; [reflexivity|]. rewrite H2. reflexivity.
Qed.
Lemma loop_complete_q : forall P ps, params_words false P ps -> Forall not_q ps -> forall f d z, (List.length ps < f)%nat -> one_parameter false false (Some (lit "q")) z = None ->
  parameters_loop f false false (Some (lit "q")) d (P ++ z) = (set_all (map entry ps) d, z).
Proof.
  intros P ps H. induction H as [|a b n w v r l Ha Hb T V H IH]; intros NQ f d z Hf Hz.
  - destruct f as [|f]; [lia|]. cbn [app parameters_loop]. rewrite Hz. reflexivity.
  - destruct f as [|f]; [lia|]. apply osp_false in Ha. apply osp_false in Hb. subst. inversion NQ as [|? ? N1 N2]; subst. cbn [app parameters_loop]. rewrite (one_complete_q n w v) by assumption.
    cbv iota beta. rewrite IH; [reflexivity|exact N2|cbn [List.length] in Hf; lia|exact Hz].
Qed.
Lemma params_app_sp : forall P ps z, params_words false P ps -> parse_sp z = z -> parse_sp (P ++ z) = P ++ z.
Proof. intros P ps z H Hz. destruct H as [|a b n w v r l Ha Hb T V H]; [exact Hz|]. apply osp_false in Ha. subst. reflexivity. Qed.
Lemma loop_zero : forall f a c q d z, one_parameter a c q z = None -> parameters_loop f a c q d z = (d, z).
Proof. intros [|f] a c q d z H; cbn [parameters_loop]; [reflexivity|]. rewrite H. reflexivity. Qed.
Lemma enough : forall P ps (z : list word), params_words false P ps -> ps <> [] -> (List.length ps < List.length (P ++ z))%nat.
Proof.
  intros P ps z H N. destruct H as [|a b n w v r l Ha Hb T V H]; [congruence|]. pose proof (params_length _ _ _ H). rewrite !app_length. cbn [List.length]. rewrite app_length. cbn [List.length]. lia.
Qed.

(** ** ranges *)
Lemma low_ascii : forall s, ascii_str s -> ascii_str (b_lower s).
Proof. intros s H. unfold b_lower, ascii_str. rewrite Forall_map. eapply Forall_impl; [|exact H]. intros c Hc. cbv beta in *. unfold lower_c. destruct ((65 <=? c) && (c <=? 90)) eqn:E; [b2p; lia|exact Hc]. Qed.
Lemma range_complete : forall R m z, range_words R m -> parse_sp z = z -> one_parameter false false (Some (lit "q")) z = None -> require_media_range (R ++ z) = Ok (m, z).
Proof.
  intros R m z (t & u & P & ps & -> & T1 & T2 & A1 & A2 & HP & NQ & ->) Hs Hz. unfold require_media_range. cbn [app]. rewrite parse_sp_str, (require_token_ok t _ T1). cbn [rbind]. rewrite (HttpParamAccept.ascii_ok _ (low_ascii _ A1)). cbn [rbind].
  change (require_separator 47 (WByte 47 :: ?x)) with (Ok x). cbn [rbind]. rewrite (require_token_ok u _ T2). cbn [rbind]. rewrite (HttpParamAccept.ascii_ok _ (low_ascii _ A2)). cbn [rbind].
  unfold parse_parameters. rewrite !(params_app_sp P ps z HP Hs). destruct ps as [|p ps].
  - inversion HP; subst. cbn [app]. rewrite (loop_zero _ _ _ _ _ _ Hz). reflexivity.
  - rewrite (loop_complete_q P (p :: ps) HP NQ); [reflexivity|apply (enough P (p :: ps) z HP); discriminate|exact Hz].
Qed.
Lemma range_inv : forall l m r, fine l -> spaces_ok false l -> require_media_range l = Ok (m, r) -> exists R, l = R ++ r /\ range_words R m.
Proof.
  intros l m r F Sp H. unfold require_media_range in H. rewrite (spaces_false l Sp) in H. destruct (require_token l) as [[t l1]|] eqn:E1; [|discriminate]. cbn [rbind] in H. destruct (req_tok_fine _ _ _ F E1) as (F1 & T & _). apply req_tok_inv in E1. subst l.
  destruct (ascii (b_lower t)) as [t'|] eqn:A1; [|discriminate]. cbn [rbind] in H. apply HttpParamAccept.ascii_inv in A1 as [-> A1]. destruct (require_separator 47 l1) as [l2|] eqn:E2; [|discriminate]. cbn [rbind] in H. apply req_sep_inv in E2. subst l1.
  assert (F2 : fine l2) by (inversion F1; assumption). destruct (require_token l2) as [[u l3]|] eqn:E3; [|discriminate]. cbn [rbind] in H. destruct (req_tok_fine _ _ _ F2 E3) as (F3 & Tu & _). apply req_tok_inv in E3. subst l2.
  destruct (ascii (b_lower u)) as [u'|] eqn:A2; [|discriminate]. cbn [rbind] in H. apply HttpParamAccept.ascii_inv in A2 as [-> A2]. apply (spaces_app false [WStr t; WByte 47; WStr u]) in Sp. unfold parse_parameters in H. rewrite !(spaces_false l3 Sp) in H.
  destruct (parameters_loop (List.length l3) false false (Some (lit "q")) [] l3) as [d r'] eqn:E4. inversion H; subst. destruct (loop_inv_q _ _ _ _ _ F3 Sp E4) as (P & ps & -> & HP & HQ & ->).
  assert (Bt : bytes t /\ bytes u).
  { inversion F as [|? ? G1 G2]; subst. inversion G2 as [|? ? _ G3]; subst. inversion G3 as [|? ? G4 _]; subst. split; [apply G1|apply G4]. }
  destruct Bt as [Bt Bu]. exists (WStr t :: WByte 47 :: WStr u :: P). split; [reflexivity|]. exists t, u, P, ps. rewrite ascii_lower in A1 by exact Bt. rewrite ascii_lower in A2 by exact Bu. repeat (split; [first [reflexivity|assumption]|]). reflexivity.
Qed.

(** ** items *)
Lemma item_complete : forall W a r, item_grammar W a -> after r -> require_accept_item (W ++ r) = Ok (a, r).
Proof.
  intros W a r H HA. unfold require_accept_item. destruct H as [R m H|R m Q q E es H HQ HE].
  - assert (E0 : parse_sp (R ++ r) = R ++ r) by (destruct H as (t & u & P & ps & -> & _); reflexivity). rewrite E0, (range_complete R m r H (after_sp r HA) (after_none _ _ r HA)). cbn [rbind]. rewrite (after_sp r HA). destruct HA as [->|[x ->]]; reflexivity.
  - rewrite <- !app_assoc. assert (E0 : parse_sp (R ++ Q ++ E ++ r) = R ++ Q ++ E ++ r) by (destruct H as (t & u & P & ps & -> & _); reflexivity). rewrite E0. clear E0.
    destruct (require_q_complete Q q (E ++ r) HQ) as (Q' & EQ & Rq). assert (Sq : parse_sp (Q ++ E ++ r) = Q ++ E ++ r) by (rewrite EQ; reflexivity). rewrite (range_complete R m (Q ++ E ++ r) H Sq).
    + cbn [rbind]. rewrite Sq, EQ. cbn [app]. change (parse_separator 59 (WByte 59 :: ?x)) with (true, x). cbv iota beta. rewrite Rq. cbn [rbind]. unfold parse_parameters. rewrite (params_app_sp E es r HE (after_sp r HA)).
      destruct es as [|p es]; [inversion HE; subst; cbn [app]; rewrite (loop_zero _ _ _ _ _ _ (after_none _ _ r HA)); reflexivity|].
      pose proof (loop_complete false E (p :: es) HE (List.length (E ++ r)) [] r (enough E (p :: es) r HE ltac:(discriminate)) (after_none _ _ r HA)) as L. cbn [negb] in L. rewrite L. reflexivity.
    + clear - HQ. destruct HQ as (n & w & -> & Hn & _). destruct (q_name_token n Hn) as [T _]. unfold one_parameter. cbn [app]. change (require_separator 59 (parse_sp (WByte 59 :: ?x))) with (Ok x). cbv iota beta. rewrite parse_sp_str, (require_token_ok n _ T). cbv iota beta zeta.
      apply lower_q in Hn. rewrite Hn. reflexivity.
Qed.
Lemma item_inv : forall l a r, fine l -> spaces_ok false l -> require_accept_item l = Ok (a, r) -> exists W, l = W ++ r /\ item_grammar W a.
Proof.
  intros l a r F Sp H. unfold require_accept_item in H. rewrite (spaces_false l Sp) in H. destruct (require_media_range l) as [[m l1]|] eqn:E1; [|discriminate]. cbn [rbind] in H. destruct (range_inv l m l1 F Sp E1) as (R & -> & HR).
  apply spaces_app in Sp. apply Forall_app in F as [_ F]. rewrite (spaces_false l1 Sp) in H. destruct (parse_separator 59 l1) as [b l2] eqn:E2. destruct b.
  - assert (l1 = WByte 59 :: l2). { unfold parse_separator in E2. destruct l1 as [|[b|t] l1]; try discriminate. destruct (Z.eqb_spec b 59); [congruence|discriminate]. } subst l1. apply (spaces_app false [WByte 59]) in Sp. inversion F as [|? ? _ F2]; subst.
    destruct (require_q l2) as [[q l3]|] eqn:E3; [|discriminate]. cbn [rbind] in H. destruct (require_q_inv l2 q l3 Sp E3) as (n & w & -> & Hn & Hw). apply (spaces_app false [WStr n; WByte 61; WStr w]) in Sp.
    assert (F3 : fine l3) by (inversion F2 as [|? ? _ G]; subst; inversion G as [|? ? _ G2]; subst; inversion G2; assumption). unfold parse_parameters in H. rewrite (spaces_false l3 Sp) in H. destruct (parameters_loop (List.length l3) true false None [] l3) as [d r'] eqn:E4. inversion H; subst.
    destruct (loop_inv _ false _ _ _ _ F3 Sp E4) as (P & es & -> & HP & ->). exists (R ++ [WByte 59; WStr n; WByte 61; WStr w] ++ P). split; [rewrite <- !app_assoc; reflexivity|]. apply ig_quality; [exact HR|exists n, w; auto|exact HP].
  - assert (l2 = l1). { unfold parse_separator in E2. destruct l1 as [|[b|t] l1]; try congruence. destruct (b =? 59); congruence. } inversion H; subst. exists R. split; [reflexivity|]. constructor. exact HR.
Qed.
Lemma token_complete : forall W a r, token_grammar W a -> after r -> require_accept_token (W ++ r) = Ok (a, r).
Proof.
  intros W a r H HA. unfold require_accept_token. destruct H as [t T A|t Q q T A HQ]; cbn [app]; rewrite parse_sp_str, (require_token_ok t _ T); cbn [rbind]; rewrite (HttpParamAccept.ascii_ok t A); cbn [rbind].
  - destruct HA as [->|[x ->]]; reflexivity.
  - destruct (require_q_complete Q q r HQ) as (Q' & -> & Rq). cbn [app]. change (parse_separator 59 (parse_sp (WByte 59 :: ?x))) with (true, x). cbv iota beta. rewrite Rq. reflexivity.
Qed.
Lemma token_inv : forall l a r, fine l -> spaces_ok false l -> require_accept_token l = Ok (a, r) -> exists W, l = W ++ r /\ token_grammar W a.
Proof.
  intros l a r F Sp H. unfold require_accept_token in H. rewrite (spaces_false l Sp) in H. destruct (require_token l) as [[t l1]|] eqn:E1; [|discriminate]. cbn [rbind] in H. destruct (req_tok_fine _ _ _ F E1) as (F1 & T & _). apply req_tok_inv in E1. subst l.
  destruct (ascii t) as [t'|] eqn:A; [|discriminate]. cbn [rbind] in H. apply HttpParamAccept.ascii_inv in A as [-> A]. apply (spaces_app false [WStr t]) in Sp. rewrite (spaces_false l1 Sp) in H. destruct (parse_separator 59 l1) as [b l2] eqn:E2. destruct b.
  - assert (l1 = WByte 59 :: l2). { unfold parse_separator in E2. destruct l1 as [|[b|s] l1]; try discriminate. destruct (Z.eqb_spec b 59); [congruence|discriminate]. } subst l1. apply (spaces_app false [WByte 59]) in Sp.
    destruct (require_q l2) as [[q l3]|] eqn:E3; [|discriminate]. cbn [rbind] in H. destruct (require_q_inv l2 q l3 Sp E3) as (n & w & -> & Hn & Hw). inversion H; subst. exists (WStr t :: [WByte 59; WStr n; WByte 61; WStr w]). split; [reflexivity|]. constructor; [exact T|exact A|exists n, w; auto].
  - assert (l2 = l1). { unfold parse_separator in E2. destruct l1 as [|[b|s] l1]; try congruence. destruct (b =? 59); congruence. } inversion H; subst. exists [WStr t]. split; [reflexivity|]. constructor; assumption.
Qed.

(** ** lists *)
Section Lists.
  Context {A : Type} (req : list word -> res (A * list word)) (g : list word -> A -> Prop).
  Hypothesis complete : forall W a r, g W a -> after r -> req (W ++ r) = Ok (a, r).
  Hypothesis inv : forall l a r, fine l -> spaces_ok false l -> req l = Ok (a, r) -> exists W, l = W ++ r /\ g W a.
  Hypothesis head : forall W a, g W a -> exists t r, W = WStr t :: r.
  Lemma loop_nil : forall f l r, items_loop req f l = Ok ([], r) -> r = l.
  Proof using.
    intros [|f] [|w l] r H; cbn [items_loop] in H; try congruence. destruct (req (w :: l)) as [[a l1]|e]; [|destruct e; congruence].
    destruct (parse_separator 44 (parse_sp l1)) as [[|] l2]; [|discriminate]. destruct (items_loop req f l2) as [[x y]|]; discriminate.
  Qed.
  Lemma loop_grammar : forall f l items, fine l -> spaces_ok false l -> items <> [] -> items_loop req f l = Ok (items, []) -> list_grammar g l items.
  Proof using inv.
    induction f as [|f IH]; intros l items F Sp N H; [destruct l; cbn [items_loop] in H; congruence|]. destruct l as [|w l]; [cbn [items_loop] in H; congruence|]. cbn [items_loop] in H.
    destruct (req (w :: l)) as [[a l1]|e] eqn:E1; [|destruct e; congruence]. destruct (inv _ _ _ F Sp E1) as (W & EW & HW). rewrite EW in *. clear w l EW E1. apply spaces_app in Sp. apply Forall_app in F as [_ F]. rewrite (spaces_false l1 Sp) in H.
    destruct (parse_separator 44 l1) as [b l2] eqn:E2. destruct b.
    - assert (l1 = WByte 44 :: l2). { unfold parse_separator in E2. destruct l1 as [|[b|s] l1]; try discriminate. destruct (Z.eqb_spec b 44); [congruence|discriminate]. } subst l1. apply (spaces_app false [WByte 44]) in Sp. inversion F as [|? ? _ F2]; subst.
      destruct (items_loop req f l2) as [[x y]|] eqn:E3; [|discriminate]. cbn [rbind] in H. inversion H; subst. destruct x as [|b x].
      + apply loop_nil in E3. subst l2. apply lg_comma. exact HW.
      + apply lg_more; [exact HW|]. apply IH; [exact F2|exact Sp|discriminate|exact E3].
    - assert (l2 = l1). { unfold parse_separator in E2. destruct l1 as [|[b|s] l1]; try congruence. destruct (b =? 44); congruence. } inversion H; subst. rewrite app_nil_r. apply lg_last. exact HW.
  Qed.
  Lemma grammar_loop : forall l items, list_grammar g l items -> forall f, (List.length items < f)%nat -> items_loop req f l = Ok (items, []).
  Proof using complete inv head.
    intros l items H. induction H as [W a H|W a H|W a r l H HL IH]; intros f Hf; (destruct f as [|f]; [lia|]); destruct (head W a H) as (t & x & EW).
    - pose proof (complete W a [] H (or_introl eq_refl)) as C. rewrite app_nil_r in C. rewrite EW in *. cbn [items_loop]. rewrite C. reflexivity.
    - pose proof (complete W a [WByte 44] H (or_intror (ex_intro _ [] eq_refl))) as C. rewrite EW in *. cbn [app items_loop] in *. rewrite C. destruct f; reflexivity.
    - pose proof (complete W a (WByte 44 :: r) H (or_intror (ex_intro _ r eq_refl))) as C. rewrite EW in *. cbn [app items_loop] in *. rewrite C. change (parse_separator 44 (parse_sp (WByte 44 :: ?x))) with (true, x). cbv iota beta.
      rewrite (IH f) by (cbn [List.length] in Hf; lia). reflexivity.
  Qed.
  Lemma grammar_head : forall l items, list_grammar g l items -> parse_sp l = l /\ (List.length items <= List.length l)%nat /\ items <> [].
  Proof using head.
    clear complete inv req. intros l items H. induction H as [W a H|W a H|W a r l H HL IH]; destruct (head W a H) as (t & x & ->); (split; [reflexivity|split; [|discriminate]]); cbn [List.length app]; rewrite ?app_length; cbn [List.length]; lia.
  Qed.
  Lemma loop_iff : forall l items, fine l -> spaces_ok false l -> items <> [] -> (items_loop req (S (List.length l)) l = Ok (items, []) <-> list_grammar g l items).
  Proof using complete inv head.
    intros l items F Sp N. split; [apply loop_grammar; assumption|]. intros H. apply grammar_loop; [exact H|]. pose proof (grammar_head l items H) as (_ & L & _). lia.
  Qed.
End Lists.
Lemma item_head : forall W a, item_grammar W a -> exists t r, W = WStr t :: r.
Proof. intros W a H. destruct H as [R m (t & u & P & ps & -> & _)|R m Q q E es (t & u & P & ps & -> & _) _ _]; do 2 eexists; reflexivity. Qed.
Lemma token_head_word : forall W a, token_grammar W a -> exists t r, W = WStr t :: r.
Proof. intros W a H. destruct H; do 2 eexists; reflexivity. Qed.

(** An Accept header is read if and only if its words are of the grammar, and as its items, in order of precedence *)
Theorem accept_exact : forall s l, bytes s -> accept_from_str s = Ok l <-> exists ws items, words_of s true = Ok ws /\ list_grammar item_grammar ws items /\ l = accept_list items.
Proof.
  intros s l B. unfold accept_from_str. destruct (words_of s true) as [ws|e] eqn:W; cbn [rbind].
  2:{ split; [discriminate|]. intros (ws & items & E & _). discriminate. }
  destruct (spaces_of _ _ _ B W) as [F Sp]. cbn [negb] in Sp. rewrite (spaces_false ws Sp).
  assert (I : forall items, items <> [] -> (items_loop require_accept_item (S (List.length ws)) ws = Ok (items, []) <-> list_grammar item_grammar ws items)) by (intros items N; apply loop_iff; [exact item_complete|exact item_inv|exact item_head|exact F|exact Sp|exact N]).
  split.
  - intros H. destruct (items_loop require_accept_item (S (List.length ws)) ws) as [[items r]|] eqn:E; [|discriminate]. cbn [rbind] in H. destruct items as [|a items]; [discriminate|]. destruct r as [|x r]; [|discriminate]. cbn [require_end rbind] in H. inversion H. exists ws, (a :: items). split; [reflexivity|]. split; [|reflexivity]. apply I; [discriminate|reflexivity].
  - intros (ws' & items & E & G & ->). inversion E; subst ws'. pose proof (grammar_head item_grammar item_head ws items G) as (_ & _ & N). apply (I items N) in G. rewrite G. cbn [rbind]. destruct items; [congruence|reflexivity].
Qed.
(** and a list of tokens; it may be empty *)
Theorem tokens_exact : forall order s l, bytes s -> tokens_from_str order s = Ok l <-> exists ws items, words_of s true = Ok ws /\ (ws = [] /\ items = [] \/ list_grammar token_grammar ws items) /\ l = order items.
Proof.
  intros order s l B. unfold tokens_from_str. destruct (words_of s true) as [ws|e] eqn:W; cbn [rbind].
  2:{ split; [discriminate|]. intros (ws & items & E & _). discriminate. }
  destruct (spaces_of _ _ _ B W) as [F Sp]. cbn [negb] in Sp. rewrite (spaces_false ws Sp).
  assert (I : forall items, items <> [] -> (items_loop require_accept_token (S (List.length ws)) ws = Ok (items, []) <-> list_grammar token_grammar ws items)) by (intros items N; apply loop_iff; [exact token_complete|exact token_inv|exact token_head_word|exact F|exact Sp|exact N]).
  split.
  - intros H. destruct (items_loop require_accept_token (S (List.length ws)) ws) as [[items r]|] eqn:E; [|discriminate]. cbn [rbind] in H. destruct r as [|x r]; [|discriminate]. cbn [require_end rbind] in H. inversion H. exists ws, items. split; [reflexivity|]. split; [|reflexivity].
    destruct items as [|a items]; [apply loop_nil in E; left; auto|right; apply I; [discriminate|reflexivity]].
  - intros (ws' & items & E & G & ->). inversion E; subst ws'. destruct G as [[-> ->]|G]; [reflexivity|]. pose proof (grammar_head token_grammar token_head_word ws items G) as (_ & _ & N). apply (I items N) in G. rewrite G. reflexivity.
Qed.
(** a single item, and a single range *)
Theorem item_exact : forall s a, bytes s -> item_from_str s = Ok a <-> exists ws, words_of s true = Ok ws /\ item_grammar ws a.
Proof.
  intros s a B. unfold item_from_str. destruct (words_of s true) as [ws|e] eqn:W; cbn [rbind].
  2:{ split; [discriminate|]. intros (ws & E & _). discriminate. }
  destruct (spaces_of _ _ _ B W) as [F Sp]. cbn [negb] in Sp. rewrite (spaces_false ws Sp). split.
  - intros H. destruct (require_accept_item ws) as [[b r]|] eqn:E; [|discriminate]. cbn [rbind] in H. destruct (item_inv ws b r F Sp E) as (V & EV & HV). rewrite EV in Sp. apply spaces_app in Sp. rewrite (spaces_false r Sp) in H. destruct r as [|x r]; [|discriminate]. inversion H; subst b. rewrite app_nil_r in EV. subst V. exists ws. auto.
  - intros (ws' & E & G). inversion E; subst ws'. pose proof (item_complete ws a [] G (or_introl eq_refl)) as C. rewrite app_nil_r in C. rewrite C. reflexivity.
Qed.
Theorem token_exact : forall s t, bytes s -> token_from_str s = Ok t <-> exists ws, words_of s true = Ok ws /\ token_grammar ws t.
Proof.
  intros s a B. unfold token_from_str. destruct (words_of s true) as [ws|e] eqn:W; cbn [rbind].
  2:{ split; [discriminate|]. intros (ws & E & _). discriminate. }
  destruct (spaces_of _ _ _ B W) as [F Sp]. cbn [negb] in Sp. rewrite (spaces_false ws Sp). split.
  - intros H. destruct (require_accept_token ws) as [[b r]|] eqn:E; [|discriminate]. cbn [rbind] in H. destruct (token_inv ws b r F Sp E) as (V & EV & HV). rewrite EV in Sp. apply spaces_app in Sp. rewrite (spaces_false r Sp) in H. destruct r as [|x r]; [|discriminate]. inversion H; subst b. rewrite app_nil_r in EV. subst V. exists ws. auto.
  - intros (ws' & E & G). inversion E; subst ws'. pose proof (token_complete ws a [] G (or_introl eq_refl)) as C. rewrite app_nil_r in C. rewrite C. reflexivity.
Qed.
Theorem range_exact : forall s m, bytes s -> range_from_str s = Ok m <-> exists ws, words_of s true = Ok ws /\ range_words ws m.
Proof.
  intros s m B. unfold range_from_str. destruct (words_of s true) as [ws|e] eqn:W; cbn [rbind].
  2:{ split; [discriminate|]. intros (ws & E & _). discriminate. }
  destruct (spaces_of _ _ _ B W) as [F Sp]. cbn [negb] in Sp. split.
  - intros H. destruct (require_media_range ws) as [[b r]|] eqn:E; [|discriminate]. cbn [rbind] in H. destruct (range_inv ws b r F Sp E) as (V & EV & HV). destruct r as [|x r]; [|discriminate]. inversion H; subst b. rewrite app_nil_r in EV. subst V. exists ws. auto.
  - intros (ws' & E & G). inversion E; subst ws'. pose proof (range_complete ws m [] G eq_refl eq_refl) as C. rewrite app_nil_r in C. rewrite C. reflexivity.
Qed.
(** An example: spaces anywhere, capitals, a quality of more than 1, a comma at the end *)
Example ex_grammar : words_of (lit " Text/* ; Q = 7.3 ,") true = Ok [WStr (lit "Text"); WByte 47; WStr star; WByte 59; WStr (lit "Q"); WByte 61; WStr (lit "7.3"); WByte 44] /\
  list_grammar item_grammar [WStr (lit "Text"); WByte 47; WStr star; WByte 59; WStr (lit "Q"); WByte 61; WStr (lit "7.3"); WByte 44] [AI (mkmt (lit "text") star []) 1000 []].
Proof.
  split; [vm_compute; reflexivity|]. assert (D : forall s, forallb HttpModel.is_digit s = true -> Forall dec_digit s) by (intros s H; apply Forall_forall; intros c Hc; rewrite forallb_forall in H; specialize (H c Hc); unfold HttpModel.is_digit in H; b2p; unfold dec_digit; lia).
  apply (lg_comma item_grammar ([WStr (lit "Text"); WByte 47; WStr star] ++ [WByte 59; WStr (lit "Q"); WByte 61; WStr (lit "7.3")] ++ []) (AI (mkmt (lit "text") star []) 1000 [])).
  apply (ig_quality [WStr (lit "Text"); WByte 47; WStr star] (mkmt (lit "text") star []) [WByte 59; WStr (lit "Q"); WByte 61; WStr (lit "7.3")] 1000 [] []); [| |constructor].
  - exists (lit "Text"), star, [], []. split; [reflexivity|]. split; [apply lit_token; [discriminate|reflexivity]|]. split; [apply lit_token; [discriminate|reflexivity]|]. split; [repeat constructor; reflexivity|]. split; [repeat constructor; reflexivity|]. split; [constructor|]. split; [constructor|reflexivity].
  - exists (lit "Q"), (lit "7.3"). split; [reflexivity|]. split; [right; reflexivity|]. apply (qw_parts (lit "7") (lit "3")); [discriminate|discriminate|apply D; reflexivity|apply D; reflexivity|cbn; lia].
Qed.
Print Assumptions accept_exact.
Print Assumptions tokens_exact.
Print Assumptions item_exact.
Print Assumptions token_exact.
Print Assumptions range_exact.
