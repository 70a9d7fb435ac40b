(** C39: exactly which sources the parameter classes accept. *)
From Verif Require Import Py Num UriModel UriRel HttpModel HttpSpec HttpProofs HttpLex HttpProps HttpParamModel HttpParamSpec HttpParamProofs HttpParamMain HttpParamParsed HttpParamProps.

(** ** Grammar, in words (see c38_words for the words of a source) *)
(** a space that may be left out, if spaces are words at all *)
Definition osp (sp : bool) (a : list word) : Prop := a = [] \/ (sp = true /\ a = [WByte 32]).
(** a token or a quoted string, and its value *)
Definition value_word (w v : str) : Prop := (token w /\ v = w) \/ ((exists r, w = 34 :: r) /\ v = decode_quoted_string w).
(** parameters: SEMICOLON name EQUALS value *)
Inductive params_words (sp : bool) : list word -> list (str * str) -> Prop :=
| pw_nil : params_words sp [] []
| pw_cons : forall a b n w v r l, osp sp a -> osp sp b -> token n -> value_word w v -> params_words sp r l ->
    params_words sp (a ++ WByte 59 :: b ++ WStr n :: WByte 61 :: WStr w :: r) ((n, v) :: l).
(** the dictionary of a list of parameters *)
Definition dict_of (l : list (str * str)) : params := set_all (map entry l) [].

(** ** the spaces among the words *)
Definition nosp (l : list word) : Prop := ~ In (WByte 32) l.
Fixpoint noadj (l : list word) : Prop :=
  match l with
  | x :: r => (x = WByte 32 -> match r with y :: _ => y <> WByte 32 | [] => True end) /\ noadj r
  | [] => True
  end.
Definition hd_nosp (l : list word) : Prop := match l with y :: _ => y <> WByte 32 | [] => True end.
Lemma no_lws_head_word : forall (tail : str -> list word -> Prop) sp s l, (forall s l, tail s l -> nosp l) -> lexed tail sp s l -> no_lws s -> hd_nosp l.
Proof.
  intros tail sp s l Ht H N. destruct H as [s l H|a s l Ha Hs H|c s l H1 H2 H3 H4 H|t s l Tt Hs H|raw u s l Hq H|raw u s l Hq H].
  - apply Ht in H. destruct l as [|y l]; [exact I|]. intros ->. apply H. left. reflexivity.
  - exfalso. destruct Ha as [a Ha|a b Ha Hb]; [exact (N a s eq_refl Ha)|]. rewrite <- app_assoc in N. exact (N a (b ++ s) eq_refl Ha).
  - cbn. intros X. inversion X. subst. apply H2. left. reflexivity.
  - discriminate.
  - discriminate.
  - discriminate.
Qed.
Lemma lexed_spaces : forall (tail : str -> list word -> Prop) sp s l, (forall s l, tail s l -> nosp l) -> lexed tail sp s l -> noadj l /\ (sp = false -> nosp l).
Proof.
  intros tail sp s l Ht H. pose proof H as K. induction H as [s l H|a s l Ha Hs H IH|c s l H1 H2 H3 H4 H IH|t s l Tt Hs H IH|raw u s l Hq H IH|raw u s l Hq H IH].
  - apply Ht in H. split; [|auto]. clear K. induction l as [|y l IH]; [exact I|]. split; [intros ->; exfalso; apply H; left; reflexivity|]. apply IH. intros X. apply H. right. exact X.
  - destruct (IH H) as [A B]. destruct sp; [|split; assumption]. cbn [app]. split; [|discriminate]. split; [|exact A]. intros _. exact (no_lws_head_word tail true s l Ht H Hs).
  - destruct (IH H) as [A B]. split.
    + split; [|exact A]. intros X. inversion X; subst. exfalso. apply H2. left. reflexivity.
    + intros E X. destruct X as [X|X]; [inversion X; subst; apply H2; left; reflexivity|exact (B E X)].
  - destruct (IH H) as [A B]. split; [split; [discriminate|exact A]|]. intros E [X|X]; [discriminate|exact (B E X)].
  - destruct (IH H) as [A B]. split; [split; [discriminate|exact A]|]. intros E [X|X]; [discriminate|exact (B E X)].
  - destruct (IH H) as [A B]. split; [split; [discriminate|exact A]|]. intros E [X|X]; [discriminate|exact (B E X)].
Qed.
Lemma words_spaces : forall s ig l, bytes s -> words_of s ig = Ok l -> noadj l /\ (ig = true -> nosp l).
Proof.
  intros s ig l B H. apply c38_words in H; [|exact B].
  assert (G : noadj l /\ (negb ig = false -> nosp l)).
  { destruct H as [H|H]; (eapply lexed_spaces; [|exact H]).
    - intros s0 l0 [_ ->] [].
    - intros s0 l0 (b & u & Hb & _ & ->) [X|[]]. discriminate. }
  split; [apply G|]. intros ->. apply G. reflexivity.
Qed.
Lemma noadj_app : forall a b, noadj (a ++ b) -> noadj b.
Proof. induction a as [|x a IH]; intros b H; [exact H|]. apply IH. apply H. Qed.
Lemma sp_split : forall l, exists a, osp true a /\ l = a ++ parse_sp l.
Proof.
  intros [|[b|t] l]; [exists []; split; [left|]; reflexivity| |exists []; split; [left|]; reflexivity].
  unfold parse_sp, parse_separator. destruct (Z.eqb_spec b 32) as [->|N]; [exists [WByte 32]|exists []]; (split; [|reflexivity]); [right|left]; auto.
Qed.
Lemma nosp_sp : forall l, nosp l -> parse_sp l = l.
Proof. intros [|[b|t] l] H; try reflexivity. unfold parse_sp, parse_separator. destruct (Z.eqb_spec b 32) as [->|N]; [exfalso; apply H; left; reflexivity|reflexivity]. Qed.
Lemma nosp_app : forall a b, nosp (a ++ b) -> nosp b.
Proof. intros a b H X. apply H. apply in_or_app. right. exact X. Qed.
Lemma osp_app : forall a b l, osp true a -> osp true b -> noadj (a ++ b ++ l) -> osp true (a ++ b).
Proof.
  intros a b l [->|[_ ->]] Hb N; [exact Hb|]. destruct Hb as [->|[_ ->]]; [right; split; reflexivity|]. exfalso. cbn in N. destruct N as [N _]. exact (N eq_refl eq_refl).
Qed.
Lemma osp_parse : forall a c r, osp true a -> c <> 32 -> parse_sp (a ++ WByte c :: r) = WByte c :: r.
Proof.
  intros a c r [->|[_ ->]] Hc; [|reflexivity]. cbn [app]. unfold parse_sp, parse_separator. destruct (Z.eqb_spec c 32); [contradiction|reflexivity].
Qed.
Lemma osp_parse_str : forall a t r, osp true a -> parse_sp (a ++ WStr t :: r) = WStr t :: r.
Proof. intros a t r [->|[_ ->]]; reflexivity. Qed.

(** ** one parameter *)
Lemma req_sep_inv : forall c l r, require_separator c l = Ok r -> l = WByte c :: r.
Proof.
  intros c [|[b|t] l] r; unfold require_separator, parse_separator; try discriminate. destruct (Z.eqb_spec b c) as [->|N]; [|discriminate]. intros E. inversion E. reflexivity.
Qed.
Lemma parse_tok_inv : forall l t r, parse_token l = (Some t, r) -> l = WStr t :: r.
Proof. intros [|[b|[|c t']] l] t r; cbn [parse_token]; try discriminate. destruct (is_separator c); intros E; inversion E. reflexivity. Qed.
Lemma req_tok_inv : forall l t r, require_token l = Ok (t, r) -> l = WStr t :: r.
Proof.
  intros l t r. unfold require_token. destruct (parse_token l) as [[x|] y] eqn:E; [|discriminate]. intros X. inversion X; subst. apply parse_tok_inv. exact E.
Qed.
Lemma quoted_inv : forall l v r, parse_quoted_word l = (Some v, r) -> exists t, l = WStr (34 :: t) :: r /\ v = decode_quoted_string (34 :: t).
Proof.
  intros [|[b|[|c t']] l] v r; cbn [parse_quoted_word]; try discriminate. destruct (Z.eqb_spec c 34) as [->|N]; intros E; inversion E; subst. exists t'. split; reflexivity.
Qed.
Definition spaces_ok (sp : bool) (l : list word) : Prop := noadj l /\ (sp = false -> nosp l).
Lemma spaces_app : forall sp a b, spaces_ok sp (a ++ b) -> spaces_ok sp b.
Proof. intros sp a b [H1 H2]. split; [eapply noadj_app, H1|]. intros E. eapply nosp_app, H2, E. Qed.
(** what one parse_sp takes *)
Lemma sp_takes : forall sp l, spaces_ok sp l -> exists a, osp sp a /\ l = a ++ parse_sp l.
Proof.
  intros sp l [H1 H2]. destruct sp; [apply sp_split|]. exists []. split; [left; reflexivity|]. rewrite nosp_sp by (apply H2; reflexivity). reflexivity.
Qed.
Lemma one_inv : forall sp q l k n v r, fine l -> spaces_ok sp l -> one_parameter (negb sp) false q l = Some (k, n, v, r) -> q = None ->
  exists a b w, l = a ++ WByte 59 :: b ++ WStr n :: WByte 61 :: WStr w :: r /\ osp sp a /\ osp sp b /\ token n /\ value_word w v /\ k = u_lower n.
Proof.
  intros sp q l k n v r F S E ->. unfold one_parameter in E. destruct (sp_takes sp l S) as (a & Ha & El).
  destruct (require_separator 59 (parse_sp l)) as [l1|] eqn:E1; [|discriminate]. apply req_sep_inv in E1. rewrite E1 in El.
  assert (S1 : spaces_ok sp l1). { rewrite El in S. apply spaces_app in S. apply (spaces_app sp [WByte 59]) in S. exact S. }
  assert (F1 : fine l1). { rewrite El in F. apply Forall_app in F as [_ F]. inversion F; assumption. }
  destruct (sp_takes sp l1 S1) as (b & Hb & El1). destruct (require_token (parse_sp l1)) as [[t l2]|] eqn:E2; [|discriminate].
  pose proof (req_tok_fine _ _ _ (sp_fine l1 F1) E2) as (F2 & T & _). apply req_tok_inv in E2. rewrite E2 in El1.
  assert (S2 : spaces_ok sp l2). { rewrite El1 in S1. apply spaces_app in S1. apply (spaces_app sp [WStr t]) in S1. exact S1. }
  assert (X : forall l, spaces_ok sp l -> (if negb sp then parse_sp l else l) = l).
  { intros l0 [_ H]. destruct sp; [reflexivity|]. cbn. apply nosp_sp. auto. }
  cbn zeta iota in E. rewrite (X l2 S2) in E. destruct (require_separator 61 l2) as [l3|] eqn:E3; [|discriminate]. apply req_sep_inv in E3. subst l2.
  assert (S3 : spaces_ok sp l3) by (apply (spaces_app sp [WByte 61]) in S2; exact S2). rewrite (X l3 S3) in E.
  assert (F3 : fine l3) by (inversion F2; assumption).
  destruct (parse_token l3) as [[w|] l4] eqn:E4.
  - destruct (tok_fine _ _ _ F3 E4) as [_ [Tw _]]. apply parse_tok_inv in E4. inversion E; subst. exists a, b, v. split; [reflexivity|].
    split; [exact Ha|]. split; [exact Hb|]. split; [exact T|]. split; [left; auto|reflexivity].
  - destruct (parse_quoted_word l3) as [[w|] l5] eqn:E5; [|discriminate]. apply quoted_inv in E5 as (t' & E5 & ->). inversion E; subst. exists a, b, (34 :: t').
    split; [reflexivity|]. split; [exact Ha|]. split; [exact Hb|]. split; [exact T|]. split; [right; split; [exists t'; reflexivity|reflexivity]|reflexivity].
Qed.
Lemma loop_inv : forall f sp d l d' r, fine l -> spaces_ok sp l -> parameters_loop f (negb sp) false None d l = (d', r) ->
  exists P ps, l = P ++ r /\ params_words sp P ps /\ d' = set_all (map entry ps) d.
Proof.
  induction f as [|f IH]; intros sp d l d' r F S E; cbn [parameters_loop] in E; [inversion E; subst; exists [], []; split; [reflexivity|split; [constructor|reflexivity]]|].
  destruct (one_parameter (negb sp) false None l) as [[[[k n] v] l']|] eqn:E1; [|inversion E; subst; exists [], []; split; [reflexivity|split; [constructor|reflexivity]]].
  destruct (one_fine _ _ _ _ _ _ _ F E1) as [F' _]. destruct (one_inv sp None l k n v l' F S E1 eq_refl) as (a & b & w & -> & Ha & Hb & T & V & ->).
  assert (S' : spaces_ok sp l'). { apply spaces_app in S. apply (spaces_app sp [WByte 59]) in S. apply spaces_app in S. apply (spaces_app sp [WStr n; WByte 61; WStr w]) in S. exact S. }
  destruct (IH _ _ _ _ _ F' S' E) as (P & ps & -> & HP & ->). exists (a ++ WByte 59 :: b ++ WStr n :: WByte 61 :: WStr w :: P), ((n, v) :: ps). split; [|split; [|reflexivity]].
  - rewrite <- !app_assoc. cbn [app]. rewrite <- !app_assoc. reflexivity.
  - constructor; assumption.
Qed.
Lemma osp_true : forall sp a, osp sp a -> osp true a.
Proof. intros sp a [H|[_ H]]; [left; exact H|right; auto]. Qed.
Lemma token_head : forall t, token t -> exists c r, t = c :: r /\ is_separator c = false.
Proof.
  intros [|c r] [N F]; [congruence|]. exists c, r. split; [reflexivity|]. inversion F; subst. destruct (is_separator c) eqn:E; [|reflexivity]. apply sep_in in E. exfalso. exact (sep_ntok c E H1).
Qed.
Lemma value_parse : forall w v r, value_word w v ->
  (parse_token (WStr w :: r) = (Some v, r)) \/ ((exists x, parse_token (WStr w :: r) = (None, x)) /\ parse_quoted_word (WStr w :: r) = (Some v, r)).
Proof.
  intros w v r [[T ->]|[[t ->] ->]]; [left; apply parse_token_ok; exact T|]. right. split; [eexists; reflexivity|reflexivity].
Qed.
Lemma one_complete : forall sp a b n w v r, osp sp a -> osp sp b -> token n -> value_word w v ->
  one_parameter (negb sp) false None (a ++ WByte 59 :: b ++ WStr n :: WByte 61 :: WStr w :: r) = Some (u_lower n, n, v, r).
Proof.
  intros sp a b n w v r Ha Hb T V. unfold one_parameter. rewrite osp_parse by (eauto using osp_true; lia). change (require_separator 59 (WByte 59 :: ?x)) with (Ok x). cbv iota beta.
  rewrite osp_parse_str by (eapply osp_true, Hb). rewrite (require_token_ok n _ T). cbv iota beta zeta.
  assert (E : forall x, (if negb sp then parse_sp (WByte 61 :: x) else WByte 61 :: x) = WByte 61 :: x) by (intros x; destruct sp; reflexivity).
  rewrite E. change (require_separator 61 (WByte 61 :: ?x)) with (Ok x). cbv iota beta.
  assert (E2 : (if negb sp then parse_sp (WStr w :: r) else WStr w :: r) = WStr w :: r) by (destruct sp; reflexivity).
  rewrite E2. destruct (value_parse w v r V) as [H|[[x H] H2]]; rewrite H; [reflexivity|]. rewrite H2. reflexivity.
Qed.
Lemma loop_complete : forall sp P ps, params_words sp P ps -> forall f d z, (length ps < f)%nat -> one_parameter (negb sp) false None z = None ->
  parameters_loop f (negb sp) false None d (P ++ z) = (set_all (map entry ps) d, z).
Proof.
  intros sp P ps H. induction H as [|a b n w v r l Ha Hb T V H IH]; intros f d z Hf Hz.
  - destruct f as [|f]; [lia|]. cbn [app parameters_loop]. rewrite Hz. reflexivity.
  - destruct f as [|f]; [lia|]. cbn [parameters_loop]. rewrite <- !app_assoc. cbn [app]. rewrite <- !app_assoc. cbn [app]. rewrite (one_complete sp a b n w v) by assumption.
    cbv iota beta. rewrite IH; [reflexivity|cbn in Hf; lia|exact Hz].
Qed.
Lemma params_length : forall sp P ps, params_words sp P ps -> (length ps <= length P)%nat.
Proof. intros sp P ps H. induction H; [cbn; lia|]. rewrite app_length. cbn [length]. rewrite app_length. cbn [length]. lia. Qed.
(** parameters and the end, from the space before *)
Lemma osp_none : forall sp z, osp sp z -> one_parameter (negb sp) false None z = None.
Proof. intros sp z [->|[_ ->]]; reflexivity. Qed.
Lemma parse_complete : forall sp P ps z, params_words sp P ps -> osp sp z ->
  exists z', parse_parameters (negb sp) false None [] (parse_sp (P ++ z)) = (dict_of ps, z') /\ parse_sp z' = [].
Proof.
  intros sp P ps z H Hz. unfold parse_parameters, dict_of. destruct H as [|a b n w v r l Ha Hb T V H].
  - exists []. cbn [app]. destruct Hz as [->|[_ ->]]; split; reflexivity.
  - set (Q := WByte 59 :: b ++ WStr n :: WByte 61 :: WStr w :: r).
    assert (HQ : params_words sp Q ((n, v) :: l)) by (apply (pw_cons sp [] b n w v r l); auto; left; reflexivity).
    assert (E : parse_sp ((a ++ Q) ++ z) = Q ++ z).
    { unfold Q. rewrite <- app_assoc. cbn [app]. rewrite osp_parse by (eauto using osp_true; lia). reflexivity. }
    rewrite E. assert (E2 : parse_sp (Q ++ z) = Q ++ z) by reflexivity. rewrite E2. exists z. split; [|destruct Hz as [->|[_ ->]]; reflexivity].
    apply loop_complete; [exact HQ| |apply osp_none; exact Hz]. rewrite app_length. pose proof (params_length sp Q _ HQ). unfold Q. cbn [length]. rewrite app_length. cbn [length] in *.
    pose proof (params_length sp r l H). lia.
Qed.

Lemma sp_idem : forall l, noadj l -> parse_sp (parse_sp l) = parse_sp l.
Proof.
  intros [|[b|t] l] H; try reflexivity. unfold parse_sp at 2 3. unfold parse_separator. destruct (Z.eqb_spec b 32) as [->|N].
  - cbn [snd]. cbn [noadj] in H. destruct H as [H _]. specialize (H eq_refl). destruct l as [|[c|t] l]; try reflexivity. unfold parse_sp, parse_separator. destruct (Z.eqb_spec c 32) as [->|N]; [congruence|reflexivity].
  - cbn [snd]. unfold parse_sp, parse_separator. destruct (Z.eqb_spec b 32); [contradiction|reflexivity].
Qed.
Lemma sp_end : forall sp r, spaces_ok sp r -> parse_sp r = [] -> osp sp r.
Proof.
  intros sp r S E. destruct (sp_takes sp r S) as (a & Ha & El). rewrite E, app_nil_r in El. subst. exact Ha.
Qed.
Lemma osp_join : forall sp a b l, osp sp a -> osp sp b -> spaces_ok sp (a ++ b ++ l) -> osp sp (a ++ b).
Proof.
  intros sp a b l [->|[E ->]] Hb S; [exact Hb|]. subst. destruct Hb as [->|[_ ->]]; [right; split; reflexivity|]. exfalso. destruct S as [N _]. cbn in N. destruct N as [N _]. exact (N eq_refl eq_refl).
Qed.
Lemma params_end : forall sp l d r, fine l -> spaces_ok sp l -> parse_parameters (negb sp) false None [] (parse_sp l) = (d, r) -> parse_sp r = [] ->
  exists P ps z, l = P ++ z /\ params_words sp P ps /\ osp sp z /\ d = dict_of ps.
Proof.
  intros sp l d r F S E En. unfold parse_parameters in E. rewrite (sp_idem l) in E by apply S. destruct (sp_takes sp l S) as (a & Ha & El).
  assert (S1 : spaces_ok sp (parse_sp l)) by (rewrite El in S; apply spaces_app in S; exact S).
  destruct (loop_inv _ sp _ _ _ _ (sp_fine l F) S1 E) as (P & ps & EP & HP & ->).
  assert (Sr : spaces_ok sp r) by (rewrite EP in S1; apply spaces_app in S1; exact S1). pose proof (sp_end sp r Sr En) as Hr.
  rewrite EP in El. destruct HP as [|a0 b n w v r0 l0 Ha0 Hb T V HP].
  - exists [], [], (a ++ r). split; [exact El|]. split; [constructor|]. split; [|reflexivity]. apply (osp_join sp a r []); [exact Ha|exact Hr|]. rewrite app_nil_r. cbn [app] in El. rewrite <- El. exact S.
  - exists (a ++ a0 ++ WByte 59 :: b ++ WStr n :: WByte 61 :: WStr w :: r0), ((n, v) :: l0), r. split; [rewrite <- app_assoc; exact El|]. split; [|split; [exact Hr|reflexivity]].
    rewrite app_assoc. constructor; try assumption. rewrite El in S. rewrite <- app_assoc in S. exact (osp_join sp a a0 _ Ha Ha0 S).
Qed.
Lemma params_false : forall P ps, params_words false P ps -> parse_sp P = P.
Proof. intros P ps H. destruct H as [|a b n w v r l [->|[E _]] Hb T V H]; [reflexivity|reflexivity|discriminate]. Qed.

Lemma is_digits_inv : forall s, is_digits s = true -> s <> [] /\ Forall dec_digit s.
Proof.
  intros [|c s] H; [discriminate|]. split; [discriminate|]. unfold is_digits, all_of in H. apply Forall_forall. intros x Hx. rewrite forallb_forall in H. apply H in Hx. unfold is_digit in Hx. b2p. unfold dec_digit. lia.
Qed.
(** HTTPVersion *)
Theorem c39_version_accepts : forall s v, bytes s ->
  version_from_str s = Ok v <->
  exists t a b, words_of s true = Ok [WStr t; WByte 47; WStr (a ++ 46 :: b)] /\ b_upper t = lit "HTTP" /\
    (a <> [] /\ Forall dec_digit a) /\ (b <> [] /\ Forall dec_digit b) /\ v = (decimal a, decimal b).
Proof.
  intros s v B. split.
  - intros E. unfold version_from_str in E. destruct (words_of s true) as [l|] eqn:W; [|discriminate]. cbn [rbind] in E. destruct (words_spaces _ _ _ B W) as [_ N]. specialize (N eq_refl).
    unfold require_http_version in E. rewrite (nosp_sp l N) in E. destruct (require_token l) as [[t l1]|] eqn:E1; [|discriminate]. cbn [rbind] in E. apply req_tok_inv in E1. subst l.
    destruct (negb (str_eqb (b_upper t) (lit "HTTP"))) eqn:U; [discriminate|]. apply negb_false_iff, str_eqb_eq in U.
    apply (nosp_app [WStr t]) in N. rewrite (nosp_sp l1 N) in E. destruct (require_separator 47 l1) as [l2|] eqn:E2; [|discriminate]. cbn [rbind] in E. apply req_sep_inv in E2. subst l1.
    apply (nosp_app [WByte 47]) in N. rewrite (nosp_sp l2 N) in E. destruct (require_token l2) as [[u l3]|] eqn:E3; [|discriminate]. cbn [rbind] in E. apply req_tok_inv in E3. subst l2.
    pose proof (join_split 46 u) as J. destruct (split_on 46 u) as [|a [|b [|]]]; try discriminate. destruct (is_digits a && is_digits b) eqn:D; [|discriminate]. cbn [rbind] in E.
    destruct l3; [|discriminate]. inversion E. apply andb_true_iff in D as [D1 D2]. exists t, a, b. rewrite <- J in W |- *. split; [reflexivity|]. split; [exact U|].
    split; [apply is_digits_inv; exact D1|]. split; [apply is_digits_inv; exact D2|]. reflexivity.
  - intros (t & a & b & W & U & [A1 A2] & [B1 B2] & ->). unfold version_from_str. rewrite W. cbn [rbind]. unfold require_http_version. rewrite parse_sp_str.
    assert (T : token t). { pose proof (words_wgood _ _ _ B W) as F. inversion F as [|? ? G _]; subst. destruct G as [_ [T|(c & r & -> & Sc)]]; [exact T|]. exfalso. cbn in U. inversion U as [[U1 U2]]. unfold upper_c in U1.
      destruct ((97 <=? c) && (c <=? 122)) eqn:E; b2p; [assert (c = 104) by lia|]; subst; discriminate. }
    rewrite (require_token_ok t _ T). cbn [rbind]. rewrite U. change (negb (str_eqb (lit "HTTP") (lit "HTTP"))) with false. cbv iota.
    change (require_separator 47 (parse_sp (WByte 47 :: ?x))) with (Ok x). cbn [rbind]. rewrite parse_sp_str.
    assert (T2 : token (a ++ 46 :: b)).
    { split; [destruct a; discriminate|]. apply Forall_app. split; [eapply Forall_impl; [|exact A2]; intros c Hc; apply (digit_tok c Hc)|].
      constructor; [apply is_tok_tok; reflexivity|]. eapply Forall_impl; [|exact B2]; intros c Hc; apply (digit_tok c Hc). }
    rewrite (require_token_ok _ _ T2). cbn [rbind].
    assert (N1 : ~ In 46 a) by (intros X; rewrite Forall_forall in A2; apply A2 in X; unfold dec_digit in X; lia).
    assert (N2 : ~ In 46 b) by (intros X; rewrite Forall_forall in B2; apply B2 in X; unfold dec_digit in X; lia).
    rewrite split_app, split_no by assumption. rewrite !is_digits_ok by assumption. reflexivity.
Qed.


(** ** ascii *)
Definition ascii_str (s : str) : Prop := Forall (fun c => c < 128) s.
Lemma ascii_inv : forall s r, ascii s = Ok r -> r = s /\ ascii_str s.
Proof.
  intros s r. unfold ascii. destruct (forallb _ s) eqn:E; [|discriminate]. intros X. inversion X; subst. split; [reflexivity|]. apply Forall_forall. intros c Hc. rewrite forallb_forall in E. apply E in Hc. b2p. exact Hc.
Qed.
Lemma ascii_ok : forall s, ascii_str s -> ascii s = Ok s.
Proof.
  intros s H. unfold ascii. destruct (forallb _ s) eqn:E; [reflexivity|]. exfalso. assert (X : forallb (fun c => c <? 128) s = true); [|congruence].
  apply forallb_forall. intros c Hc. unfold ascii_str in H. rewrite Forall_forall in H. apply Z.ltb_lt. apply H. exact Hc.
Qed.
Lemma ascii_lower : forall s, bytes s -> ascii_str (b_lower s) <-> ascii_str s.
Proof.
  intros s B. unfold ascii_str, b_lower. rewrite Forall_map. split; apply Forall_impl; intros c; unfold lower_c; destruct ((65 <=? c) && (c <=? 90)) eqn:E; b2p; lia.
Qed.
Lemma spaces_of : forall s ig l, bytes s -> words_of s ig = Ok l -> fine l /\ spaces_ok (negb ig) l.
Proof.
  intros s ig l B W. split; [exact (words_wgood _ _ _ B W)|]. destruct (words_spaces _ _ _ B W) as [A N]. split; [exact A|]. destruct ig; [|discriminate]. intros _. apply N. reflexivity.
Qed.

(** ** MediaType *)
Theorem c39_media_accepts : forall s m, bytes s ->
  mt_from_str s = Ok m <->
  exists a t u P ps z, words_of s false = Ok (a ++ WStr t :: WByte 47 :: WStr u :: P ++ z) /\ osp true a /\ osp true z /\
    token t /\ token u /\ ascii_str t /\ ascii_str u /\ params_words true P ps /\ m = mkmt (b_lower t) (b_lower u) (dict_of ps).
Proof.
  intros s m B. split.
  - intros E. unfold mt_from_str in E. destruct (words_of s false) as [l|] eqn:W; [|discriminate]. cbn [rbind] in E. destruct (spaces_of _ _ _ B W) as [F S]. cbn [negb] in S.
    unfold require_media_type in E. destruct (sp_takes true l S) as (a & Ha & El).
    destruct (require_token (parse_sp l)) as [[t l1]|] eqn:E1; [|discriminate]. cbn [rbind] in E. destruct (req_tok_fine _ _ _ (sp_fine l F) E1) as (F1 & T & _). apply req_tok_inv in E1. rewrite E1 in El.
    destruct (ascii (b_lower t)) as [t'|] eqn:A1; [|discriminate]. cbn [rbind] in E. apply ascii_inv in A1 as [-> A1].
    destruct (require_separator 47 l1) as [l2|] eqn:E2; [|discriminate]. cbn [rbind] in E. apply req_sep_inv in E2. subst l1.
    assert (F2 : fine l2) by (inversion F1; assumption).
    destruct (require_token l2) as [[u l3]|] eqn:E3; [|discriminate]. cbn [rbind] in E. destruct (req_tok_fine _ _ _ F2 E3) as (F3 & Tu & _). apply req_tok_inv in E3. subst l2.
    destruct (ascii (b_lower u)) as [u'|] eqn:A2; [|discriminate]. cbn [rbind] in E. apply ascii_inv in A2 as [-> A2].
    assert (S3 : spaces_ok true l3). { rewrite El in S. apply spaces_app in S. apply (spaces_app true [WStr t; WByte 47; WStr u]) in S. exact S. }
    destruct (parse_parameters false false None [] (parse_sp l3)) as [d r] eqn:E4. cbn [rbind] in E. destruct (parse_sp r) eqn:E5; [|discriminate]. cbn in E. inversion E; subst m.
    destruct (params_end true l3 d r F3 S3 E4 E5) as (P & ps & z & -> & HP & Hz & ->). exists a, t, u, P, ps, z.
    assert (Bt : bytes t /\ bytes u).
    { rewrite El in F. apply Forall_app in F as [_ F]. inversion F as [|? ? G1 G2]; subst. inversion G2 as [|? ? _ G3]; subst. inversion G3 as [|? ? G4 _]; subst. split; [apply G1|apply G4]. }
    destruct Bt as [Bt Bu]. rewrite ascii_lower in A1 by exact Bt. rewrite ascii_lower in A2 by exact Bu. rewrite El. auto 12.
  - intros (a & t & u & P & ps & z & W & Ha & Hz & Tt & Tu & At & Au & HP & ->). unfold mt_from_str. rewrite W. cbn [rbind]. destruct (spaces_of _ _ _ B W) as [F S].
    assert (Bt : bytes t /\ bytes u).
    { apply Forall_app in F as [_ F]. inversion F as [|? ? G1 G2]; subst. inversion G2 as [|? ? _ G3]; subst. inversion G3 as [|? ? G4 _]; subst. split; [apply G1|apply G4]. }
    destruct Bt as [Bt Bu]. unfold require_media_type. rewrite osp_parse_str by exact Ha. rewrite (require_token_ok t _ Tt). cbn [rbind]. rewrite ascii_ok by (apply ascii_lower; assumption). cbn [rbind].
    change (require_separator 47 (WByte 47 :: ?x)) with (Ok x). cbn [rbind]. rewrite (require_token_ok u _ Tu). cbn [rbind]. rewrite ascii_ok by (apply ascii_lower; assumption). cbn [rbind].
    destruct (parse_complete true P ps z HP Hz) as (z' & E1 & E2). cbn [negb] in E1. rewrite E1. cbn [rbind]. rewrite E2. reflexivity.
Qed.

(** ** TransferEncoding *)
Lemma lower_lower : forall s, u_lower (b_lower s) = u_lower s.
Proof.
  induction s as [|c s IH]; [reflexivity|]. cbn. f_equal; [|exact IH]. unfold lower_u, lower_c. destruct ((65 <=? c) && (c <=? 90)) eqn:E; [|rewrite E; reflexivity]. b2p.
  destruct (((65 <=? c + 32) && (c + 32 <=? 90)) || ((192 <=? c + 32) && (c + 32 <=? 222) && negb (c + 32 =? 215))) eqn:E2; [b2p; lia|]. cbn. reflexivity.
Qed.
Lemma lower_ascii_agree : forall s w, ascii_str w -> u_lower s = w -> b_lower s = w.
Proof.
  induction s as [|c s IH]; intros w A E; [exact E|]. subst w. cbn in *. inversion A as [|? ? A1 A2]; subst. f_equal; [|apply IH; [exact A2|reflexivity]].
  unfold lower_u, lower_c in *. destruct ((65 <=? c) && (c <=? 90)) eqn:E1; cbn [orb] in *; [reflexivity|].
  destruct ((192 <=? c) && (c <=? 222) && negb (c =? 215)) eqn:E2; [|reflexivity]. b2p. lia.
Qed.
Lemma chunked_lower : forall t, str_eqb (b_lower t) (lit "chunked") = false -> str_eqb (u_lower t) (lit "chunked") = false.
Proof.
  intros t H. destruct (str_eqb (u_lower t) (lit "chunked")) eqn:E; [|reflexivity]. apply str_eqb_eq in E. apply lower_ascii_agree in E.
  - rewrite E in H. discriminate.
  - apply Forall_forall. intros c Hc. vm_compute in Hc. repeat destruct Hc as [Hc|Hc]; subst; try lia; contradiction.
Qed.
Lemma spaces_false : forall l, spaces_ok false l -> parse_sp l = l.
Proof. intros l [_ H]. apply nosp_sp. auto. Qed.
Lemma osp_false : forall z, osp false z -> z = [].
Proof. intros z [H|[H _]]; [exact H|discriminate]. Qed.
Theorem c39_te_accepts : forall s m, bytes s ->
  te_from_str s = Ok m <->
  exists t P ps, words_of s true = Ok (WStr t :: P) /\ token t /\ params_words false P ps /\
    (b_lower t = lit "chunked" -> P = []) /\ m = mkte (u_lower t) (dict_of ps).
Proof.
  intros s m B. split.
  - intros E. unfold te_from_str in E. destruct (words_of s true) as [l|] eqn:W; [|discriminate]. cbn [rbind] in E. destruct (spaces_of _ _ _ B W) as [F S]. cbn [negb] in S.
    unfold require_transfer_encoding in E. rewrite spaces_false in E by exact S. destruct (require_token l) as [[t l1]|] eqn:E1; [|discriminate]. cbn [rbind] in E.
    destruct (req_tok_fine _ _ _ F E1) as (F1 & T & _). apply req_tok_inv in E1. subst l. apply (spaces_app false [WStr t]) in S.
    destruct (str_eqb (b_lower t) (lit "chunked")) eqn:C; cbn [negb] in E.
    + cbn [rbind] in E. destruct l1; [|discriminate]. cbn in E. inversion E. exists t, [], []. split; [reflexivity|]. split; [exact T|]. split; [constructor|]. split; [reflexivity|].
      apply str_eqb_eq in C. rewrite <- lower_lower, C. reflexivity.
    + destruct (parse_parameters true false None [] l1) as [d r] eqn:E2. cbn [rbind] in E. destruct r; [|discriminate]. cbn in E. inversion E. rewrite <- (spaces_false l1 S) in E2.
      destruct (params_end false l1 d [] F1 S E2 eq_refl) as (P & ps & z & -> & HP & Hz & ->). apply osp_false in Hz. subst z. rewrite app_nil_r. exists t, P, ps. split; [reflexivity|]. split; [exact T|]. split; [exact HP|].
      split; [intros X; rewrite X in C; discriminate|]. unfold new_te. rewrite lower_lower. rewrite (chunked_lower t C). reflexivity.
  - intros (t & P & ps & W & T & HP & C & ->). unfold te_from_str. rewrite W. cbn [rbind]. unfold require_transfer_encoding. rewrite parse_sp_str. rewrite (require_token_ok t _ T). cbn [rbind].
    destruct (str_eqb (b_lower t) (lit "chunked")) eqn:D; cbn [negb].
    + apply str_eqb_eq in D. pose proof (C D) as X. subst P. inversion HP as [H1 H2|a b n w v r l H1 H2 H3 H4 H5 H6 H7]; [|destruct a; discriminate]. rewrite <- lower_lower, D. reflexivity.
    + destruct (parse_complete false P ps [] HP (or_introl eq_refl)) as (z' & E1 & E2). rewrite app_nil_r in E1. rewrite (params_false P ps HP) in E1. cbn [negb] in E1. rewrite E1. cbn [rbind].
      assert (z' = []).
      { unfold parse_parameters in E1. rewrite (params_false P ps HP) in E1. destruct (parse_parameters true false None [] P) as [d r] eqn:X. destruct (spaces_of _ _ _ B W) as [F S]. apply (spaces_app false [WStr t]) in S.
        destruct z' as [|y z']; [reflexivity|]. exfalso. inversion F as [|? ? _ F1]; subst. destruct (loop_inv _ false _ _ _ _ F1 S E1) as (P' & ps' & EP & _ & _). rewrite EP in S. apply spaces_app in S. apply spaces_false in S. congruence. }
      subst z'. cbn. unfold new_te. rewrite lower_lower, (chunked_lower t D). reflexivity.
Qed.

(** ** Chunk *)
Theorem c39_chunk_accepts : forall s m, bytes s ->
  chunk_from_str s = Ok m <->
  exists h P ps, words_of s true = Ok (WStr h :: P) /\ is_hexdigits h = true /\ params_words false P ps /\ m = mkchunk (hexadecimal h) (dict_of ps).
Proof.
  intros s m B. split.
  - intros E. unfold chunk_from_str in E. destruct (words_of s true) as [l|] eqn:W; [|discriminate]. cbn [rbind] in E. destruct (spaces_of _ _ _ B W) as [F S]. cbn [negb] in S.
    unfold require_chunk, require_hexinteger in E. rewrite spaces_false in E by exact S. destruct l as [|[b|h] l1]; cbn [parse_hexinteger rbind] in E; [discriminate|discriminate|].
    destruct (is_hexdigits h) eqn:H; [|discriminate]. cbn [rbind] in E. apply (spaces_app false [WStr h]) in S. inversion F as [|? ? _ F1]; subst.
    destruct (parse_parameters true false None [] l1) as [d r] eqn:E2. cbn [rbind] in E. destruct r; [|discriminate]. cbn in E. inversion E. rewrite <- (spaces_false l1 S) in E2.
    destruct (params_end false l1 d [] F1 S E2 eq_refl) as (P & ps & z & -> & HP & Hz & ->). apply osp_false in Hz. subst z. rewrite app_nil_r. exists h, P, ps. split; [reflexivity|]. split; [exact H|]. split; [exact HP|reflexivity].
  - intros (h & P & ps & W & H & HP & ->). unfold chunk_from_str. rewrite W. cbn [rbind]. unfold require_chunk, require_hexinteger. rewrite parse_sp_str. cbn [parse_hexinteger]. rewrite H. cbn [rbind].
    destruct (parse_complete false P ps [] HP (or_introl eq_refl)) as (z' & E1 & E2). rewrite app_nil_r in E1. rewrite (params_false P ps HP) in E1. cbn [negb] in E1. rewrite E1. cbn [rbind].
    assert (z' = []).
    { unfold parse_parameters in E1. rewrite (params_false P ps HP) in E1. destruct (spaces_of _ _ _ B W) as [F S]. apply (spaces_app false [WStr h]) in S.
      destruct z' as [|y z']; [reflexivity|]. exfalso. inversion F as [|? ? _ F1]; subst. destruct (loop_inv _ false _ _ _ _ F1 S E1) as (P' & ps' & EP & _ & _). rewrite EP in S. apply spaces_app in S. apply spaces_false in S. congruence. }
    subst z'. reflexivity.
Qed.

(** ** ProductToken *)
Theorem c39_product_accepts : forall s m, bytes s ->
  pt_from_str s = Ok m <->
  exists t, token t /\ ascii_str t /\
    ((words_of s true = Ok [WStr t] /\ m = mkpt t None) \/
     (exists v, token v /\ ascii_str v /\ words_of s true = Ok [WStr t; WByte 47; WStr v] /\ m = mkpt t (Some v))).
Proof.
  intros s m B. split.
  - intros E. unfold pt_from_str in E. destruct (words_of s true) as [l|] eqn:W; [|discriminate]. cbn [rbind] in E. destruct (spaces_of _ _ _ B W) as [F S]. cbn [negb] in S.
    unfold require_product_token in E. rewrite !(spaces_false l S) in E. destruct (require_token l) as [[t l1]|] eqn:E1; [|discriminate]. cbn [rbind] in E.
    destruct (req_tok_fine _ _ _ F E1) as (F1 & T & _). apply req_tok_inv in E1. subst l. apply (spaces_app false [WStr t]) in S. destruct (ascii t) as [t'|] eqn:A; [|discriminate]. cbn [rbind] in E. apply ascii_inv in A as [-> A].
    rewrite (spaces_false l1 S) in E. exists t. split; [exact T|]. split; [exact A|]. destruct (parse_separator 47 l1) as [[|] l2] eqn:E2.
    + right. assert (E3 : require_separator 47 l1 = Ok l2) by (unfold require_separator; rewrite E2; reflexivity). apply req_sep_inv in E3. subst l1. apply (spaces_app false [WByte 47]) in S.
      assert (F2 : fine l2) by (inversion F1; assumption). destruct (require_token l2) as [[v l3]|] eqn:E3; [|discriminate]. cbn [rbind] in E. destruct (req_tok_fine _ _ _ F2 E3) as (F3 & Tv & _). apply req_tok_inv in E3. subst l2.
      apply (spaces_app false [WStr v]) in S. destruct (ascii v) as [v'|] eqn:Av; [|discriminate]. cbn [rbind] in E. apply ascii_inv in Av as [-> Av]. rewrite (spaces_false l3 S) in E. destruct l3; [|discriminate]. cbn in E. inversion E. exists v. auto.
    + left. assert (l2 = l1). { destruct l1 as [|[b|u] l1]; cbn in E2; [inversion E2; reflexivity| |inversion E2; reflexivity]. destruct (b =? 47); inversion E2. reflexivity. }
      subst l2. cbn [rbind] in E. rewrite (spaces_false l1 S) in E. destruct l1; [|discriminate]. cbn in E. inversion E. auto.
  - intros (t & T & A & [[W ->]|(v & Tv & Av & W & ->)]); unfold pt_from_str; rewrite W; cbn [rbind]; unfold require_product_token; rewrite !parse_sp_str; rewrite (require_token_ok t _ T); cbn [rbind]; rewrite (ascii_ok t A); cbn [rbind].
    + reflexivity.
    + change (parse_separator 47 (parse_sp [WByte 47; WStr v])) with (true, [WStr v]). cbv iota. rewrite (require_token_ok v _ Tv). cbn [rbind]. rewrite (ascii_ok v Av). reflexivity.
Qed.

(** ** LanguageTag: the tags are the pieces of the token between hyphens *)
Lemma ascii_all_inv : forall l r, ascii_all l = Ok r -> r = l /\ Forall ascii_str l.
Proof.
  induction l as [|s l IH]; intros r E; cbn [ascii_all] in E; [inversion E; split; [reflexivity|constructor]|].
  destruct (ascii s) as [s'|] eqn:A; [|discriminate]. cbn [rbind] in E. destruct (ascii_all l) as [l'|] eqn:A2; [|discriminate]. cbn [rbind] in E. inversion E. apply ascii_inv in A as [-> A]. destruct (IH l' eq_refl) as [-> H]. split; [reflexivity|constructor; assumption].
Qed.
Lemma ascii_all_ok : forall l, Forall ascii_str l -> ascii_all l = Ok l.
Proof. intros l H. induction H as [|s l H1 H2 IH]; [reflexivity|]. cbn [ascii_all]. rewrite (ascii_ok s H1). cbn [rbind]. rewrite IH. reflexivity. Qed.
Lemma join_ascii : forall c l, c < 128 -> Forall ascii_str l -> ascii_str (join_on c l).
Proof.
  intros c l Hc H. induction H as [|s l H1 H2 IH]; [constructor|]. destruct l as [|x l]; [exact H1|]. change (join_on c (s :: x :: l)) with (s ++ c :: join_on c (x :: l)).
  apply Forall_app. split; [exact H1|]. constructor; [exact Hc|exact IH].
Qed.
Theorem c39_language_accepts : forall s m, bytes s ->
  lt_from_str s = Ok m <->
  exists a z, words_of s false = Ok (a ++ WStr (join_on 45 (lt_primary m :: lt_subtags m)) :: z) /\ osp true a /\ osp true z /\
    token (join_on 45 (lt_primary m :: lt_subtags m)) /\ Forall (fun x => ~ In 45 x /\ ascii_str x) (lt_primary m :: lt_subtags m).
Proof.
  intros s m B. split.
  - intros E. unfold lt_from_str in E. destruct (words_of s false) as [l|] eqn:W; [|discriminate]. cbn [rbind] in E. destruct (spaces_of _ _ _ B W) as [F S]. cbn [negb] in S.
    unfold require_language_tag in E. rewrite (sp_idem l) in E by apply S. destruct (sp_takes true l S) as (a & Ha & El).
    destruct (require_token (parse_sp l)) as [[t l1]|] eqn:E1; [|discriminate]. cbn [rbind] in E. destruct (req_tok_fine _ _ _ (sp_fine l F) E1) as (F1 & T & _). apply req_tok_inv in E1. rewrite E1 in El.
    destruct (ascii_all (split_on 45 t)) as [x|] eqn:A1; [|discriminate]. cbn [rbind] in E. apply ascii_all_inv in A1 as [-> A1].
    assert (S1 : spaces_ok true l1) by (rewrite El in S; apply spaces_app in S; apply (spaces_app true [WStr t]) in S; exact S).
    pose proof (join_split 45 t) as J. pose proof (fun x => split_in 45 t x) as NP. destruct (split_on 45 t) as [|p q]; [discriminate|]. cbn [rbind] in E. rewrite (sp_idem l1) in E by apply S1. destruct (parse_sp l1) eqn:E2; [|discriminate]. cbn in E. inversion E; subst m. cbn [lt_primary lt_subtags].
    rewrite J. exists a, l1. rewrite El. split; [reflexivity|]. split; [exact Ha|]. split; [apply sp_end; assumption|]. split; [exact T|].
    apply Forall_forall. intros y Hy. rewrite Forall_forall in A1. split; [apply NP|apply A1]; exact Hy.
  - intros (a & z & W & Ha & Hz & T & H). unfold lt_from_str. rewrite W. cbn [rbind]. destruct (spaces_of _ _ _ B W) as [F S]. unfold require_language_tag. rewrite osp_parse_str by exact Ha. rewrite parse_sp_str.
    rewrite (require_token_ok _ _ T). cbn [rbind]. rewrite split_join by (try discriminate; apply Forall_forall; intros y Hy; rewrite Forall_forall in H; apply H; exact Hy).
    rewrite ascii_all_ok by (apply Forall_forall; intros y Hy; rewrite Forall_forall in H; apply H; exact Hy). cbn [rbind].
    destruct Hz as [->|[_ ->]]; destruct m; reflexivity.
Qed.

(** ** EntityTag *)
Theorem c39_etag_accepts : forall s m, bytes s ->
  et_from_str s = Ok m <->
  exists q, m = mket (decode_quoted_string (34 :: q)) (et_weak m) /\
    if et_weak m then exists w, b_upper w = lit "W" /\ words_of s true = Ok [WStr w; WByte 47; WStr (34 :: q)]
    else words_of s true = Ok [WStr (34 :: q)].
Proof.
  intros s m B. split.
  - intros E. unfold et_from_str in E. destruct (words_of s true) as [l|] eqn:W; [|discriminate]. cbn [rbind] in E. destruct (spaces_of _ _ _ B W) as [F S]. cbn [negb] in S.
    unfold require_entity_tag in E. rewrite (spaces_false l S) in E. destruct (parse_token l) as [[w|] l1] eqn:E1.
    + destruct (tok_fine _ _ _ F E1) as (F1 & T & _). apply parse_tok_inv in E1. subst l. apply (spaces_app false [WStr w]) in S. rewrite (spaces_false l1 S) in E.
      destruct (negb (str_eqb (b_upper w) (lit "W"))) eqn:U; [discriminate|]. apply negb_false_iff, str_eqb_eq in U. destruct (require_separator 47 l1) as [l2|] eqn:E2; [|discriminate]. cbn [rbind] in E. apply req_sep_inv in E2. subst l1.
      apply (spaces_app false [WByte 47]) in S. rewrite (spaces_false l2 S) in E. destruct (parse_quoted_word l2) as [[q|] l3] eqn:E3; [|discriminate]. apply quoted_inv in E3 as (x & -> & ->). apply (spaces_app false [WStr (34 :: x)]) in S.
      rewrite (spaces_false l3 S) in E. cbn [rbind] in E. destruct l3; [|discriminate]. cbn in E. inversion E. exists x. split; [reflexivity|]. cbn. exists w. auto.
    + assert (l1 = l). { destruct l as [|[b|[|c t]] l]; cbn [parse_token] in E1; try (destruct (is_separator c)); inversion E1; reflexivity. }
      subst l1. rewrite (spaces_false l S) in E. cbn [rbind] in E. destruct (parse_quoted_word l) as [[q|] l3] eqn:E3; [|discriminate]. apply quoted_inv in E3 as (x & -> & ->). apply (spaces_app false [WStr (34 :: x)]) in S.
      rewrite (spaces_false l3 S) in E. cbn [rbind] in E. destruct l3; [|discriminate]. cbn in E. inversion E. exists x. split; reflexivity.
  - intros (q & -> & H). cbn [et_weak] in *. destruct (et_weak m).
    + destruct H as (w & U & W). unfold et_from_str. rewrite W. cbn [rbind]. unfold require_entity_tag. rewrite parse_sp_str.
      destruct w as [|c [|]]; try discriminate. cbn in U. inversion U as [[U1]]. assert (C : c = 87 \/ c = 119) by (unfold upper_c in U1; destruct ((97 <=? c) && (c <=? 122)) eqn:X; b2p; lia).
      destruct C as [-> | ->]; reflexivity.
    + unfold et_from_str. rewrite H. reflexivity.
Qed.

(** ** non-trivial cases: white space around, an unclosed parameter, text after the end *)
Example c39_accepts_ex1 : mt_from_str (lit " Text/Plain ; Charset = ""x""") = Err BadSyntax /\ mt_from_str (lit " Text/Plain ; Charset=""x"" ") = Ok (mkmt (lit "text") (lit "plain") [(lit "charset", (lit "Charset", lit "x"))])
  /\ mt_from_str (lit "text/plain; q=1 zz") = Err BadSyntax /\ te_from_str (lit "chunked; a=b") = Err BadSyntax /\ chunk_from_str (lit "1f zz") = Err BadSyntax
  /\ pt_from_str (lit "a/b c") = Err BadSyntax /\ lt_from_str (lit "en-us x") = Err BadSyntax /\ et_from_str (lit "W/""x"" y") = Err BadSyntax.
Proof. repeat split; vm_compute; reflexivity. Qed.
Print Assumptions c39_version_accepts.
Print Assumptions c39_media_accepts.
Print Assumptions c39_te_accepts.
Print Assumptions c39_chunk_accepts.
Print Assumptions c39_product_accepts.
Print Assumptions c39_language_accepts.
Print Assumptions c39_etag_accepts.
