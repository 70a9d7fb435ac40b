(** Proofs for C39: words of formatted parameters. *)
From Coq Require Import Permutation Sorted.
From Verif Require Import Py Num UriModel UriRel HttpModel HttpSpec HttpProofs HttpLex HttpParamModel HttpParamSpec HttpProps.

(** ** lexing *)
Definition stop_tok (s : str) : Prop := match s with c :: _ => ~ tok c | nil => True end.

Lemma sep_ntok : forall c, separator c -> ~ tok c.
Proof. intros c H [_ H2]. contradiction. Qed.
Lemma sep_in : forall c, is_separator c = true -> separator c.
Proof. intros c H. apply is_sep_sep. exact H. Qed.
Lemma token_no_lws : forall t s, token t -> no_lws (t ++ s).
Proof.
  intros t s [Hn Hf]. destruct t as [|c t]; [congruence|]. inversion Hf; subst.
  destruct (tok_head c) as [H3 H4]; [assumption|]. cbn [app]. apply no_lws_head; assumption.
Qed.
Lemma quoted_no_lws : forall q u s, quoted q u -> no_lws (q ++ s).
Proof. intros q u s (b & v & _ & -> & _). cbn [app]. apply no_lws_head; [intros [?|?]; lia|lia]. Qed.

Lemma lex_sep : forall (tail : str -> list word -> Prop) sp c s l, is_separator c = true -> zin c [32; 9; 40; 34] = false ->
  lexed tail sp s l -> lexed tail sp (c :: s) (WByte c :: l).
Proof.
  intros tail sp c s l H1 H2 H. apply zin_not_In in H2. cbn in H2.
  apply lx_sep; [apply sep_in; exact H1| | | |exact H]; try (intros [?|?]); intuition.
Qed.
Lemma lex_sp : forall (tail : str -> list word -> Prop) sp s l, no_lws s -> lexed tail sp s l ->
  lexed tail sp (32 :: s) ((if sp then [WByte 32] else nil) ++ l).
Proof.
  intros tail sp s l Hn H. apply (lx_lws tail sp [32] s l); [|exact Hn|exact H].
  apply lwss_one. apply lws_plain; [discriminate|]. repeat constructor.
Qed.

(** ** values *)
Lemma forall_tok_dec : forall s, Forall tok s \/ ~ Forall tok s.
Proof. intros s. destruct (existsb special s) eqn:E; [right; apply tok_dec_none; exact E|left; apply special_tok; exact E]. Qed.
Lemma lex_value : forall (tail : str -> list word -> Prop) sp v s l, bytes v -> v <> nil -> stop_tok s -> lexed tail sp s l ->
  lexed tail sp (quote_string v false ++ s) (WStr (quote_string v false) :: l).
Proof.
  intros tail sp v s l B Hn Hs H. destruct (c37_unforced v B) as [H1 H2].
  destruct (forall_tok_dec v) as [T|T].
  - rewrite (H1 T). apply lx_token; [split; assumption|exact Hs|exact H].
  - rewrite (H2 T). destruct (c37_parse v B) as (Q & _). apply lx_quoted; assumption.
Qed.
Lemma lex_quoted : forall (tail : str -> list word -> Prop) sp v s l, bytes v -> lexed tail sp s l ->
  lexed tail sp (quote_string v true ++ s) (WStr (quote_string v true) :: l).
Proof. intros. destruct (c37_parse v H) as (Q & _). apply lx_quoted; assumption. Qed.
Lemma quote_head : forall v, exists q, quote_string v true = 34 :: q.
Proof.
  intros v. unfold quote_string. assert (H : snd (quote_loop v true) = true).
  { induction v as [|b t IH]; [reflexivity|]. cbn [quote_loop].
    destruct (zin b [92; 34] || (is_ctl b && negb (zin b [32; 9]))); [|destruct (is_ctl b || is_separator b)];
      destruct (quote_loop t true); exact IH. }
  destruct (quote_loop v true) as [q f]. cbn in H. subst f. eexists. reflexivity.
Qed.
Lemma parse_quoted_value : forall v r, bytes v -> parse_quoted_word (WStr (quote_string v true) :: r) = (Some v, r).
Proof.
  intros v r B. destruct (quote_head v) as [q E]. pose proof (c37_decode v B) as D. rewrite E in *.
  cbn [parse_quoted_word]. change (34 =? 34) with true. cbv iota. rewrite D. reflexivity.
Qed.
Lemma parse_token_ok : forall t r, token t -> parse_token (WStr t :: r) = (Some t, r).
Proof.
  intros t r [Hn Hf]. destruct t as [|c t]; [congruence|]. inversion Hf; subst. cbn [parse_token].
  apply is_tok_tok in H1. unfold is_tokchar in H1. apply negb_true_iff in H1. apply orb_false_iff in H1 as [_ H1]. rewrite H1. reflexivity.
Qed.
Lemma require_token_ok : forall t r, token t -> require_token (WStr t :: r) = Ok (t, r).
Proof. intros t r H. unfold require_token. rewrite (parse_token_ok t r H). reflexivity. Qed.
Lemma parse_token_quoted : forall v r, parse_token (WStr (quote_string v true) :: r) = (None, WStr (quote_string v true) :: r).
Proof. intros v r. destruct (quote_head v) as [q E]. rewrite E. reflexivity. Qed.
Lemma parse_sp_str : forall t r, parse_sp (WStr t :: r) = WStr t :: r.
Proof. reflexivity. Qed.

(** ** the words of parameters *)
Definition spw (sp : bool) : list word := if sp then [WByte 32] else nil.
Fixpoint pwords (sp : bool) (d : params) : list word :=
  match d with
  | [] => []
  | (k, (n, v)) :: r => (WByte 59 :: spw sp ++ [WStr n; WByte 61; WStr (quote_string v false)]) ++ pwords sp r
  end.
Lemma ascii_ok : forall s, Forall (fun c => 0 <= c < 128) s -> ascii s = Ok s.
Proof.
  intros s H. unfold ascii. replace (forallb (fun c => c <? 128) s) with true; [reflexivity|]. symmetry.
  apply forallb_forall. intros c Hc. rewrite Forall_forall in H. specialize (H c Hc). apply Z.ltb_lt. lia.
Qed.
Lemma stop_sep : forall c s, is_separator c = true -> stop_tok (c :: s).
Proof. intros c s H. cbn. apply sep_ntok. apply sep_in. exact H. Qed.
Lemma lex_params : forall (tail : str -> list word -> Prop) sp d s l, Forall good_param d -> stop_tok s -> lexed tail sp s l ->
  exists b, format_sorted d = Ok b /\ stop_tok (b ++ s) /\ lexed tail sp (b ++ s) (pwords sp d ++ l).
Proof.
  intros tail sp d s l G Hs H. induction G as [|[k [n v]] d (Hn & Hk & Hb & Hv) G IH].
  - exists nil. auto.
  - destruct IH as (b & E & Hb2 & L). destruct Hn as [Hn Ha].
    exists (lit "; " ++ n ++ lit "=" ++ quote_string v false ++ b). cbn [format_sorted]. rewrite (ascii_ok n Ha), E. cbn [rbind].
    split; [reflexivity|].
    split; [apply (stop_sep 59); reflexivity|].
    replace ((lit "; " ++ n ++ lit "=" ++ quote_string v false ++ b) ++ s) with (59 :: 32 :: n ++ 61 :: quote_string v false ++ b ++ s)
      by (rewrite <- !app_assoc; reflexivity).
    replace (pwords sp ((k, (n, v)) :: d) ++ l)
      with (WByte 59 :: spw sp ++ WStr n :: WByte 61 :: WStr (quote_string v false) :: pwords sp d ++ l)
      by (cbn [pwords]; unfold spw; destruct sp; reflexivity).
    apply lex_sep; [reflexivity|reflexivity|]. apply lex_sp; [apply token_no_lws; exact Hn|].
    apply lx_token; [exact Hn|exact (stop_sep 61 nil eq_refl)|]. apply lex_sep; [reflexivity|reflexivity|].
    apply lex_value; assumption.
Qed.

Lemma one_parameter_ok : forall (sp allsp cs : bool) (q : option str) (k n v : str) (l : list word), good_param (k, (n, v)) ->
  (match q with Some q => q = nil \/ (if cs then n else k) <> q | None => True end) ->
  one_parameter allsp cs q ((WByte 59 :: spw sp ++ [WStr n; WByte 61; WStr (quote_string v false)]) ++ l)
  = Some (if cs then n else k, n, v, l).
Proof.
  intros sp allsp cs q k n v l ((Hn & Ha) & Hk & Hb & Hv) Hq. unfold one_parameter.
  assert (E1 : parse_sp ((WByte 59 :: spw sp ++ [WStr n; WByte 61; WStr (quote_string v false)]) ++ l)
     = WByte 59 :: (spw sp ++ [WStr n; WByte 61; WStr (quote_string v false)]) ++ l) by reflexivity.
  rewrite E1. change (require_separator 59 (WByte 59 :: ?x)) with (Ok x). cbv iota beta.
  assert (E2 : parse_sp ((spw sp ++ [WStr n; WByte 61; WStr (quote_string v false)]) ++ l)
     = WStr n :: WByte 61 :: WStr (quote_string v false) :: l) by (destruct sp; reflexivity).
  rewrite E2, (require_token_ok n _ Hn). cbv iota beta zeta.
  replace (if cs then n else u_lower n) with (if cs then n else k) by (rewrite Hk; reflexivity).
  match goal with |- (if ?b then None else _) = _ => replace b with false end.
  2:{ symmetry. destruct q as [q|]; [|reflexivity]. destruct Hq as [->|Hq]; [reflexivity|]. apply str_eqb_neq in Hq. destruct (negb (str_eqb q [])); [exact Hq|reflexivity]. }
  assert (E3 : (if allsp then parse_sp (WByte 61 :: WStr (quote_string v false) :: l) else WByte 61 :: WStr (quote_string v false) :: l)
    = WByte 61 :: WStr (quote_string v false) :: l) by (destruct allsp; reflexivity).
  rewrite E3. change (require_separator 61 (WByte 61 :: ?x)) with (Ok x). cbv iota beta.
  assert (E4 : (if allsp then parse_sp (WStr (quote_string v false) :: l) else WStr (quote_string v false) :: l)
    = WStr (quote_string v false) :: l) by (destruct allsp; reflexivity).
  rewrite E4. destruct (c37_unforced v Hb) as [H1 H2]. destruct (forall_tok_dec v) as [T|T].
  - rewrite (H1 T), (parse_token_ok v l); [reflexivity|]. split; assumption.
  - rewrite (H2 T), parse_token_quoted, (parse_quoted_value v l Hb). reflexivity.
Qed.

Lemma dict_set_new : forall k v d, ~ In k (map fst d) -> dict_set k v d = d ++ [(k, v)].
Proof.
  intros k v d. induction d as [|[k' v'] d IH]; intros H; [reflexivity|]. cbn in H |- *.
  destruct (str_eqb k k') eqn:E; [apply str_eqb_eq in E; subst; tauto|]. rewrite IH by tauto. reflexivity.
Qed.
Lemma parameters_loop_ok : forall sp allsp d d0 l f, Forall good_param d -> NoDup (map fst (d0 ++ d)) ->
  (length d < f)%nat -> one_parameter allsp false None l = None ->
  parameters_loop f allsp false None d0 (pwords sp d ++ l) = (d0 ++ d, l).
Proof.
  intros sp allsp d. induction d as [|[k [n v]] d IH]; intros d0 l f G N Hf HL.
  - destruct f as [|f]; [lia|]. cbn [pwords app parameters_loop]. rewrite HL, app_nil_r. reflexivity.
  - inversion G; subst. destruct f as [|f]; [lia|]. cbn [pwords parameters_loop].
    rewrite <- app_assoc. rewrite (one_parameter_ok sp allsp false None k n v); [|assumption|exact I].
    cbv iota beta. rewrite dict_set_new.
    + rewrite IH; [rewrite <- app_assoc; reflexivity|assumption| |cbn in Hf; lia|assumption].
      rewrite <- app_assoc. exact N.
    + rewrite map_app in N. cbn in N. apply NoDup_remove_2 in N. intros X. apply N. apply in_or_app. left. exact X.
Qed.
Lemma pwords_length : forall sp d, (length d <= length (pwords sp d))%nat.
Proof. intros sp d. induction d as [|[k [n v]] d IH]; [cbn; lia|]. cbn [pwords]. rewrite app_length. cbn [length]. lia. Qed.
Lemma one_parameter_nil : forall a c q, one_parameter a c q [] = None.
Proof. reflexivity. Qed.
Lemma parse_parameters_ok : forall sp allsp d l, Forall good_param d -> NoDup (map fst d) ->
  parse_sp l = l -> one_parameter allsp false None l = None ->
  parse_parameters allsp false None [] (pwords sp d ++ l) = (d, l).
Proof.
  intros sp allsp d l G N HP HL. unfold parse_parameters.
  assert (E : parse_sp (pwords sp d ++ l) = pwords sp d ++ l).
  { destruct d as [|[k [n v]] d]; [exact HP|reflexivity]. }
  rewrite E. destruct d as [|p d].
  - cbn [pwords app] in *. destruct (length l); cbn [parameters_loop]; [reflexivity|]. rewrite HL. reflexivity.
  - apply (parameters_loop_ok sp allsp (p :: d) [] l); [assumption|assumption| |assumption].
    destruct p as [k [n v]]. rewrite app_length. cbn [pwords]. rewrite app_length. cbn [length]. rewrite app_length. pose proof (pwords_length sp d). cbn [length]. lia.
Qed.

(** ** sorting *)
Lemma ltb_irr : forall a, str_ltb a a = false.
Proof. induction a as [|x a IH]; [reflexivity|]. cbn. rewrite Z.ltb_irrefl, Z.eqb_refl, IH. reflexivity. Qed.
Lemma ltb_trans : forall a b c, str_ltb a b = true -> str_ltb b c = true -> str_ltb a c = true.
Proof.
  induction a as [|x a IH]; intros [|y b] [|z c]; cbn; try discriminate; auto.
  intros H1 H2. apply orb_true_iff in H1, H2. apply orb_true_iff.
  destruct H1 as [H1|H1], H2 as [H2|H2]; b2p; try (left; apply Z.ltb_lt; lia).
  right. apply andb_true_iff. split; [apply Z.eqb_eq; lia|eauto].
Qed.
Lemma ltb_total : forall a b, str_ltb a b = false -> str_ltb b a = false -> a = b.
Proof.
  induction a as [|x a IH]; intros [|y b]; cbn; try discriminate; auto.
  intros H1 H2. apply orb_false_iff in H1 as [H1 H1'], H2 as [H2 H2']. b2p. assert (x = y) by lia. subst y.
  rewrite Z.eqb_refl in *. cbn in *. f_equal. apply IH; assumption.
Qed.
Definition before (p q : str * (str * str)) : Prop := str_ltb (fst p) (fst q) = true.
Lemma insert_perm : forall x d, Permutation (x :: d) (insert x d).
Proof.
  intros x d. induction d as [|y d IH]; [constructor; constructor|]. cbn. destruct (str_ltb (fst y) (fst x)); [|reflexivity].
  rewrite perm_swap. apply perm_skip. exact IH.
Qed.
Lemma sort_perm : forall d, Permutation d (sort_params d).
Proof. induction d as [|x d IH]; [constructor|]. change (sort_params (x :: d)) with (insert x (sort_params d)). rewrite <- insert_perm. apply perm_skip. exact IH. Qed.
Lemma insert_sorted : forall x d, ~ In (fst x) (map fst d) -> StronglySorted before d -> StronglySorted before (insert x d).
Proof.
  intros x d Hn S. induction S as [|y d S IH F]; [repeat constructor|]. cbn in Hn |- *.
  destruct (str_ltb (fst y) (fst x)) eqn:E.
  - constructor; [apply IH; tauto|]. eapply Permutation_Forall; [apply insert_perm|]. constructor; assumption.
  - assert (L : str_ltb (fst x) (fst y) = true).
    { destruct (str_ltb (fst x) (fst y)) eqn:E2; [reflexivity|]. exfalso. apply Hn. left. apply ltb_total; assumption. }
    constructor; [constructor; assumption|]. constructor; [exact L|].
    eapply Forall_impl; [|exact F]. intros z Hz. unfold before in *. eapply ltb_trans; eassumption.
Qed.
Lemma sort_sorted : forall d, NoDup (map fst d) -> StronglySorted before (sort_params d).
Proof.
  induction d as [|x d IH]; intros N; [constructor|]. inversion N; subst. change (sort_params (x :: d)) with (insert x (sort_params d)). apply insert_sorted; [|apply IH; assumption].
  intros X. apply H1. eapply Permutation_in; [|exact X]. apply Permutation_map, Permutation_sym, sort_perm.
Qed.
Lemma sort_id : forall d, StronglySorted before d -> sort_params d = d.
Proof.
  intros d S. induction S as [|x d S IH F]; [reflexivity|]. change (sort_params (x :: d)) with (insert x (sort_params d)). rewrite IH. destruct d as [|y d]; [reflexivity|].
  cbn. inversion F; subst. unfold before in H1. destruct (str_ltb (fst y) (fst x)) eqn:E; [|reflexivity].
  pose proof (ltb_trans _ _ _ H1 E) as X. rewrite ltb_irr in X. discriminate.
Qed.
Lemma sort_twice : forall d, NoDup (map fst d) -> sort_params (sort_params d) = sort_params d.
Proof. intros d N. apply sort_id, sort_sorted, N. Qed.
Lemma hp_sort : forall d, NoDup (map fst d) -> hp (sort_params d) = hp d.
Proof. intros d N. unfold hp. rewrite sort_twice by assumption. reflexivity. Qed.
Lemma sort_good : forall d, good_params d -> good_params (sort_params d).
Proof.
  intros d [N G]. split.
  - eapply Permutation_NoDup; [apply Permutation_map, sort_perm|exact N].
  - eapply Permutation_Forall; [apply sort_perm|exact G].
Qed.
Lemma dict_get_in : forall d k v, NoDup (map fst d) -> (dict_get k d = Some v <-> In (k, v) d).
Proof.
  induction d as [|[k' v'] d IH]; intros k v N; cbn; [split; [discriminate|tauto]|]. inversion N; subst.
  destruct (str_eqb k k') eqn:E.
  - apply str_eqb_eq in E. subst k'. split; [intros X; inversion X; auto|]. intros [X|X]; [inversion X; reflexivity|].
    exfalso. apply H1. apply (in_map fst) in X. exact X.
  - apply str_eqb_neq in E. rewrite IH by assumption. split; [auto|]. intros [X|X]; [inversion X; congruence|exact X].
Qed.
Lemma sort_same : forall d, NoDup (map fst d) -> same_map (sort_params d) d.
Proof.
  intros d N k. assert (N2 : NoDup (map fst (sort_params d))) by (eapply Permutation_NoDup; [apply Permutation_map, sort_perm|exact N]).
  destruct (dict_get k d) as [v|] eqn:E.
  - apply dict_get_in in E; [|assumption]. apply dict_get_in; [assumption|]. eapply Permutation_in; [apply sort_perm|exact E].
  - destruct (dict_get k (sort_params d)) as [v|] eqn:E2; [|reflexivity]. apply dict_get_in in E2; [|assumption].
    assert (X : In (k, v) d) by (eapply Permutation_in; [apply Permutation_sym, sort_perm|exact E2]).
    apply dict_get_in in X; [|assumption]. congruence.
Qed.
