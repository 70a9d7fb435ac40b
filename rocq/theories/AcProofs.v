(** Proofs for C134: Accept headers. *)
From Coq Require Import Permutation Sorted.
From Verif Require Import AnModel Py Num UriModel UriRel HttpModel HttpSpec HttpProofs HttpLex HttpParamModel HttpParamSpec HttpProps HttpParamProofs HttpParamMain AnSpec AnProofs AcModel AcSpec.
From Coq Require Import String.
Open Scope Z_scope.

(** ** q-values: there are 1001 *)
Definition all_q : list Z := map Z.of_nat (seq 0 1001).
Lemma q_in : forall q, quality_ok q -> In q all_q.
Proof. intros q [H1 H2]. apply in_map_iff. exists (Z.to_nat q). split; [lia|]. apply in_seq. lia. Qed.
Definition q_reads (q : Z) : bool :=
  negb (str_eqb (fmt_q q) []) && forallb (fun c => zin c (lit "0123456789.")) (fmt_q q) && match to_q (fmt_q q) with Ok (Some q') => q' =? q | _ => false end.
Lemma q_reads_all : forallb q_reads all_q = true.
Proof. vm_compute. reflexivity. Qed.
Lemma q_char : forall c, zin c (lit "0123456789.") = true -> tok c /\ 0 <= c < 128.
Proof.
  intros c H. unfold zin in H. apply existsb_exists in H. destruct H as (x & Hx & E). apply Z.eqb_eq in E. subst x.
  assert (D : forallb (fun c => is_tokchar c && (0 <=? c) && (c <? 128)) (lit "0123456789.") = true) by (vm_compute; reflexivity).
  rewrite forallb_forall in D. specialize (D c Hx). apply andb_true_iff in D as [D D3]. apply andb_true_iff in D as [D1 D2].
  split; [apply is_tok_tok; exact D1|]. apply Z.leb_le in D2. apply Z.ltb_lt in D3. lia.
Qed.
Lemma fmt_q_ok : forall q, quality_ok q -> ascii_token (fmt_q q) /\ to_q (fmt_q q) = Ok (Some q).
Proof.
  intros q H. pose proof q_reads_all as A. rewrite forallb_forall in A. specialize (A q (q_in q H)). unfold q_reads in A.
  apply andb_true_iff in A as [A A3]. apply andb_true_iff in A as [A1 A2]. rewrite forallb_forall in A2. split.
  - split; [split|].
    + intros X. rewrite X in A1. discriminate.
    + apply Forall_forall. intros c Hc. apply q_char. apply A2. exact Hc.
    + apply Forall_forall. intros c Hc. apply q_char. apply A2. exact Hc.
  - destruct (to_q (fmt_q q)) as [[q'|]|]; try discriminate. apply Z.eqb_eq in A3. subst. reflexivity.
Qed.
Lemma parse_q_ok : forall q l, quality_ok q -> parse_qvalue (WStr (fmt_q q) :: l) = Ok (Some q, l).
Proof.
  intros q l H. destruct (fmt_q_ok q H) as [[T _] E]. unfold parse_qvalue. rewrite (parse_token_ok _ _ T), E. cbn [rbind].
  destruct H as [H1 H2]. replace (1000 <? q) with false by (symmetry; apply Z.ltb_ge; lia). reflexivity.
Qed.
Definition q_words (q : Z) : list word := [WStr (lit "q"); WByte 61; WStr (fmt_q q)].
Lemma require_q_ok : forall q l, quality_ok q -> require_q (q_words q ++ l) = Ok (q, l).
Proof.
  intros q l H. unfold require_q, q_words. change (parse_sp ([WStr (lit "q"); WByte 61; WStr (fmt_q q)] ++ l)) with (WStr (lit "q") :: WByte 61 :: WStr (fmt_q q) :: l).
  change (require_token (WStr (lit "q") :: ?x)) with (Ok (lit "q", x)). cbn [rbind]. change (ascii (lit "q")) with (Ok (lit "q")). cbn [rbind].
  change (str_eqb (u_lower (lit "q")) (lit "q")) with true. cbn [negb].
  change (require_separator 61 (parse_sp (WByte 61 :: ?x))) with (Ok x). cbn [rbind]. rewrite parse_sp_str, (parse_q_ok q l H). reflexivity.
Qed.

(** ** the words of an item *)
Definition plain (a : aitem) : bool := match aext a with [] => aq a =? 1000 | _ => false end.
Definition ext_words (a : aitem) : list word :=
  if plain a then [] else WByte 59 :: q_words (aq a) ++ pwords false (sort_params (aext a)).
Definition item_words (a : aitem) : list word :=
  WStr (mt_type (arange a)) :: WByte 47 :: WStr (mt_subtype (arange a)) :: pwords false (sort_params (mt_params (arange a))) ++ ext_words a.
Lemma q_token : token (lit "q").
Proof. apply lit_token; [discriminate|reflexivity]. Qed.
Lemma range_lex : forall (tail : str -> list word -> Prop) m s l, ascii_token (mt_type m) -> ascii_token (mt_subtype m) -> good_params (mt_params m) -> stop_tok s -> lexed tail false s l ->
  exists b, mt_to_bytes m = Ok b /\ lexed tail false (b ++ s) (WStr (mt_type m) :: WByte 47 :: WStr (mt_subtype m) :: pwords false (sort_params (mt_params m)) ++ l) /\ exists r, b = mt_type m ++ r.
Proof.
  intros tail [t u d] s l [T1 A1] [T2 A2] G Hs L. cbn [mt_type mt_subtype mt_params] in *.
  destruct (format_ok tail false d s l G Hs L) as (b & E & Hs2 & L2).
  exists (t ++ 47 :: u ++ b). unfold mt_to_bytes. cbn [mt_type mt_subtype mt_params].
  rewrite ascii_ok. 2:{ apply Forall_app. split; [exact A1|]. change (lit "/" ++ u) with (47 :: u). constructor; [lia|exact A2]. }
  rewrite E. cbn [rbind]. split; [change (lit "/" ++ u) with (47 :: u); rewrite <- app_assoc; reflexivity|]. split; [|eexists; reflexivity].
  rewrite <- app_assoc. cbn [app]. apply lex_tok; [exact T1|exact (stop_sep 47 nil eq_refl)|]. apply lex_sep; [reflexivity|reflexivity|].
  rewrite <- app_assoc. apply lex_tok; assumption.
Qed.
Lemma item_lex : forall (tail : str -> list word -> Prop) a s l, item_ok a -> stop_tok s -> lexed tail false s l ->
  exists b, item_to_bytes a = Ok b /\ lexed tail false (b ++ s) (item_words a ++ l) /\ exists r, b = mt_type (arange a) ++ r.
Proof.
  intros tail a s l (H1 & H2 & H3 & H4 & H5 & H6) Hs L. unfold item_to_bytes, item_words, ext_words. fold (plain a). destruct (plain a) eqn:P.
  - destruct (range_lex tail _ s l H1 H2 H3 Hs L) as (b & E & L2 & F). exists b. rewrite E. cbn [rbind]. split; [reflexivity|]. split; [|exact F].
    rewrite app_nil_r. exact L2.
  - destruct (format_ok tail false (aext a) s l H6 Hs L) as (e & E & Hs2 & L2).
    destruct (fmt_q_ok (aq a) H5) as [[Tq _] _].
    assert (L3 : lexed tail false (59 :: 32 :: lit "q" ++ 61 :: fmt_q (aq a) ++ e ++ s) (WByte 59 :: q_words (aq a) ++ pwords false (sort_params (aext a)) ++ l)).
    { apply lex_sep; [reflexivity|reflexivity|]. apply (lex_sp tail false); [apply token_no_lws; exact q_token|].
      change (q_words (aq a) ++ pwords false (sort_params (aext a)) ++ l) with (WStr (lit "q") :: WByte 61 :: WStr (fmt_q (aq a)) :: pwords false (sort_params (aext a)) ++ l).
      apply lex_tok; [exact q_token|exact (stop_sep 61 nil eq_refl)|]. apply lex_sep; [reflexivity|reflexivity|]. apply lex_tok; assumption. }
    destruct (range_lex tail _ _ _ H1 H2 H3 (stop_sep 59 _ eq_refl) L3) as (b & Eb & L4 & (r & F)).
    exists (b ++ lit "; q=" ++ fmt_q (aq a) ++ e). rewrite Eb, E. cbn [rbind]. split; [reflexivity|]. split.
    + replace ((b ++ lit "; q=" ++ fmt_q (aq a) ++ e) ++ s) with (b ++ 59 :: 32 :: lit "q" ++ 61 :: fmt_q (aq a) ++ e ++ s) by (rewrite <- !app_assoc; reflexivity).
      replace ((WStr (mt_type (arange a)) :: WByte 47 :: WStr (mt_subtype (arange a)) :: pwords false (sort_params (mt_params (arange a))) ++ WByte 59 :: q_words (aq a) ++ pwords false (sort_params (aext a))) ++ l)
        with (WStr (mt_type (arange a)) :: WByte 47 :: WStr (mt_subtype (arange a)) :: pwords false (sort_params (mt_params (arange a))) ++ WByte 59 :: q_words (aq a) ++ pwords false (sort_params (aext a)) ++ l); [exact L4|].
      cbn [app]. rewrite <- !app_assoc. cbn [app]. rewrite <- !app_assoc. reflexivity.
    + exists (r ++ lit "; q=" ++ fmt_q (aq a) ++ e). rewrite F, <- app_assoc. reflexivity.
Qed.

(** ** the parameters of a range *)
Lemma loop_ok_q : forall sp allsp q d d0 l f, Forall good_param d -> NoDup (map fst (d0 ++ d)) -> ~ In q (map fst d) ->
  (List.length d < f)%nat -> one_parameter allsp false (Some q) l = None ->
  parameters_loop f allsp false (Some q) d0 (pwords sp d ++ l) = (d0 ++ d, l).
Proof.
  intros sp allsp q d. induction d as [|[k [n v]] d IH]; intros d0 l f G N Q Hf HL.
  - destruct f as [|f]; [lia|]. cbn [pwords app parameters_loop]. rewrite HL, app_nil_r. reflexivity.
  - inversion G; subst. destruct f as [|f]; [lia|]. cbn [pwords parameters_loop].
    rewrite <- app_assoc. rewrite (one_parameter_ok sp allsp false (Some q) k n v); [|assumption|right; intros X; apply Q; left; exact X].
    cbv iota beta. rewrite dict_set_new.
    + rewrite IH; [rewrite <- app_assoc; reflexivity|assumption| |intros X; apply Q; right; exact X|cbn in Hf; lia|assumption].
      rewrite <- app_assoc. exact N.
    + rewrite map_app in N. cbn in N. apply NoDup_remove_2 in N. intros X. apply N. apply in_or_app. left. exact X.
Qed.
Lemma parse_ok_q : forall sp allsp q d l, Forall good_param d -> NoDup (map fst d) -> ~ In q (map fst d) ->
  parse_sp l = l -> one_parameter allsp false (Some q) l = None ->
  parse_parameters allsp false (Some q) [] (parse_sp (pwords sp d ++ l)) = (d, l).
Proof.
  intros sp allsp q d l G N Q HP HL. unfold parse_parameters.
  assert (E : parse_sp (pwords sp d ++ l) = pwords sp d ++ l).
  { destruct d as [|[k [n v]] d]; [exact HP|reflexivity]. }
  rewrite E, E. destruct d as [|p d].
  - cbn [pwords app] in *. destruct (List.length l); cbn [parameters_loop]; [reflexivity|]. rewrite HL. reflexivity.
  - apply (loop_ok_q sp allsp q (p :: d) [] l); [assumption|assumption|assumption| |assumption].
    destruct p as [k [n v]]. rewrite app_length. cbn [pwords]. rewrite app_length. cbn [List.length]. rewrite app_length. pose proof (pwords_length sp d). cbn [List.length]. lia.
Qed.
Definition norm_range (m : mediatype) : mediatype := mkmt (b_lower (mt_type m)) (b_lower (mt_subtype m)) (sort_params (mt_params m)).
Definition norm_item (a : aitem) : aitem := AI (norm_range (arange a)) (aq a) (sort_params (aext a)).
Lemma in_keys_sort : forall q d, In q (map fst (sort_params d)) <-> In q (map fst d).
Proof. intros q d. split; apply Permutation_in; apply Permutation_map; [symmetry|]; apply sort_perm. Qed.
Lemma range_parse : forall m l, ascii_token (mt_type m) -> ascii_token (mt_subtype m) -> good_params (mt_params m) -> ~ In (lit "q") (map fst (mt_params m)) ->
  parse_sp l = l -> one_parameter false false (Some (lit "q")) l = None ->
  require_media_range (WStr (mt_type m) :: WByte 47 :: WStr (mt_subtype m) :: pwords false (sort_params (mt_params m)) ++ l) = Ok (norm_range m, l).
Proof.
  intros [t u d] l [T1 A1] [T2 A2] G Q H1 H2. cbn [mt_type mt_subtype mt_params] in *. unfold require_media_range, norm_range. cbn [mt_type mt_subtype mt_params].
  rewrite parse_sp_str, (require_token_ok t _ T1). cbn [rbind].
  rewrite (ascii_ok (b_lower t)) by (apply b_lower_A; exact A1). cbn [rbind].
  change (require_separator 47 (WByte 47 :: ?x)) with (Ok x). cbn [rbind].
  rewrite (require_token_ok u _ T2). cbn [rbind]. rewrite (ascii_ok (b_lower u)) by (apply b_lower_A; exact A2). cbn [rbind].
  destruct (sort_good d G) as [N F]. rewrite parse_ok_q; [reflexivity|exact F|exact N| |exact H1|exact H2].
  rewrite in_keys_sort. exact Q.
Qed.
(** what may follow an item *)
Definition after (l : list word) : Prop := l = [] \/ exists r, l = WByte 44 :: r.
Lemma after_sp : forall l, after l -> parse_sp l = l.
Proof. intros l [->|[r ->]]; reflexivity. Qed.
Lemma after_none : forall a q l, after l -> one_parameter a false q l = None.
Proof. intros a q l [->|[r ->]]; reflexivity. Qed.
Lemma sort_nil : forall d, sort_params d = [] -> d = [].
Proof. intros d H. pose proof (sort_perm d) as P. rewrite H in P. apply Permutation_sym, Permutation_nil in P. exact P. Qed.
Lemma item_parse : forall a l, item_ok a -> after l -> require_accept_item (item_words a ++ l) = Ok (norm_item a, l).
Proof.
  intros a l (H1 & H2 & H3 & H4 & H5 & H6) HA. unfold require_accept_item, item_words, norm_item.
  replace (parse_sp ((WStr (mt_type (arange a)) :: WByte 47 :: WStr (mt_subtype (arange a)) :: pwords false (sort_params (mt_params (arange a))) ++ ext_words a) ++ l))
    with (WStr (mt_type (arange a)) :: WByte 47 :: WStr (mt_subtype (arange a)) :: pwords false (sort_params (mt_params (arange a))) ++ (ext_words a ++ l)) by (cbn [app]; rewrite <- app_assoc; reflexivity).
  unfold ext_words. destruct (plain a) eqn:P.
  - rewrite range_parse; [|assumption..|apply after_sp; exact HA|apply after_none; exact HA]. cbn [rbind app]. rewrite (after_sp l HA).
    unfold plain in P. destruct (aext a) as [|p e]; [|discriminate]. apply Z.eqb_eq in P. rewrite P.
    destruct HA as [->|[r ->]]; reflexivity.
  - rewrite range_parse; [|assumption..|reflexivity|reflexivity]. cbn [rbind]. 
    replace (parse_sp ((WByte 59 :: q_words (aq a) ++ pwords false (sort_params (aext a))) ++ l)) with (WByte 59 :: q_words (aq a) ++ pwords false (sort_params (aext a)) ++ l) by (cbn [app]; rewrite <- app_assoc; reflexivity).
    change (parse_separator 59 (WByte 59 :: ?x)) with (true, x). cbv iota beta. rewrite (require_q_ok (aq a) _ H5). cbn [rbind].
    rewrite (parse_format_ok false true (aext a) l H6 (after_sp l HA) (after_none _ _ l HA)). reflexivity.
Qed.
Lemma item_round : forall a, item_ok a -> exists b, item_to_bytes a = Ok b /\ item_from_str b = Ok (norm_item a).
Proof.
  intros a G. destruct (item_lex ending a [] [] G Logic.I (lex_end false)) as (b & E & L & _). exists b. split; [exact E|].
  unfold item_from_str. rewrite !app_nil_r in L. rewrite (words_ok b true (item_words a) L). cbn [rbind].
  change (parse_sp (item_words a)) with (item_words a). rewrite <- (app_nil_r (item_words a)), (item_parse a [] G) by (left; reflexivity). reflexivity.
Qed.

(** ** lists *)
Section Lists.
  Context {A B : Type} (words : A -> list word) (write : A -> res str) (read : list word -> res (B * list word)) (norm : A -> B) (good : A -> Prop) (first : A -> str).
  Hypothesis first_token : forall a, good a -> token (first a).
  Hypothesis lex : forall (tail : str -> list word -> Prop) a s l, good a -> stop_tok s -> lexed tail false s l ->
    exists b, write a = Ok b /\ lexed tail false (b ++ s) (words a ++ l) /\ exists r, b = first a ++ r.
  Hypothesis parse : forall a l, good a -> after l -> read (words a ++ l) = Ok (norm a, l).
  Hypothesis words_head : forall a, exists t r, words a = WStr t :: r.
  Fixpoint list_words (l : list A) : list word := match l with [] => [] | [a] => words a | a :: r => words a ++ WByte 44 :: list_words r end.
  Lemma list_words_cons : forall a b l, list_words (a :: b :: l) = words a ++ WByte 44 :: list_words (b :: l).
  Proof using. reflexivity. Qed.
  Lemma comma_sep_cons : forall b c l, comma_sep (b :: c :: l) = b ++ lit ", " ++ comma_sep (c :: l).
  Proof using. reflexivity. Qed.
  Lemma list_lex : forall l, Forall good l -> exists bs, all_ok write l = Ok bs /\ lexed ending false (comma_sep bs) (list_words l)
    /\ (match l with a :: _ => exists r, comma_sep bs = first a ++ r | [] => bs = [] end) /\ List.length bs = List.length l.
  Proof using lex first_token.
    induction 1 as [|a l G F IH]; [exists []; repeat split; apply lex_end|].
    destruct IH as (bs & E & L & Fi & Ln). cbn [all_ok]. rewrite E. destruct l as [|u l].
    - destruct bs; [|discriminate]. destruct (lex ending a [] [] G Logic.I (lex_end false)) as (b & Eb & L2 & r & Fb). rewrite !app_nil_r in L2.
      rewrite Eb. cbn [rbind]. exists [b]. repeat split; [exact L2|]. exists r. exact Fb.
    - destruct bs as [|c bs]; [discriminate|]. destruct Fi as [r Fi].
      assert (L3 : lexed ending false (44 :: 32 :: comma_sep (c :: bs)) (WByte 44 :: list_words (u :: l))).
      { apply lex_sep; [reflexivity|reflexivity|]. apply (lex_sp ending false); [|exact L]. rewrite Fi. apply token_no_lws. apply first_token. inversion F; assumption. }
      destruct (lex ending a _ _ G (stop_sep 44 (32 :: comma_sep (c :: bs)) eq_refl) L3) as (b & Eb & L2 & r2 & Fb).
      rewrite Eb. cbn [rbind]. exists (b :: c :: bs). split; [reflexivity|]. split; [rewrite comma_sep_cons, list_words_cons; exact L2|]. split; [|cbn [List.length] in *; lia].
      rewrite comma_sep_cons, Fb. eexists. rewrite <- app_assoc. reflexivity.
  Qed.
  Lemma list_parse : forall l f, Forall good l -> (List.length l < f)%nat -> items_loop read f (list_words l) = Ok (map norm l, []).
  Proof using parse words_head.
    intros l f G. revert f. induction G as [|a l G F IH]; intros f Hf; [destruct f; reflexivity|]. destruct f as [|f]; [lia|].
    destruct (words_head a) as (t & r & Hw). destruct l as [|u l].
    - cbn [list_words map]. pose proof (parse a [] G (or_introl eq_refl)) as E. rewrite app_nil_r in E.
      rewrite Hw in *. cbn [items_loop]. rewrite E. reflexivity.
    - rewrite list_words_cons. pose proof (parse a (WByte 44 :: list_words (u :: l)) G) as E.
      rewrite Hw in *. cbn [app] in *. cbn [items_loop]. rewrite E by (right; eexists; reflexivity).
      change (parse_separator 44 (parse_sp (WByte 44 :: ?x))) with (true, x). cbv iota beta. rewrite IH by (cbn [List.length] in *; lia). reflexivity.
  Qed.
  Lemma list_words_sp : forall l, parse_sp (list_words l) = list_words l.
  Proof using words_head. intros [|a [|u l]]; [reflexivity| |]; destruct (words_head a) as (t & r & Hw); [cbn [list_words]|rewrite list_words_cons]; rewrite Hw; reflexivity. Qed.
  Lemma list_words_length : forall l, (List.length l <= List.length (list_words l))%nat.
  Proof using words_head.
    induction l as [|a [|u l] IH]; [cbn; lia| |]; destruct (words_head a) as (t & r & Hw); [cbn [list_words]|rewrite list_words_cons]; rewrite Hw; cbn [List.length app]; [lia|].
    rewrite app_length. cbn [List.length] in *. lia.
  Qed.
End Lists.
Lemma accept_round : forall l, Forall item_ok l -> l <> [] -> exists b, accept_to_str l = Ok b /\ accept_from_str b = Ok (accept_list (map norm_item l)).
Proof.
  intros l G N. destruct (list_lex item_words item_to_bytes item_ok (fun a => mt_type (arange a))) with (l := l) as (bs & E & L & _).
  { intros a ([T _] & _). exact T. } { intros. apply item_lex; assumption. } { exact G. }
  exists (comma_sep bs). unfold accept_to_str. rewrite E. split; [reflexivity|]. unfold accept_from_str. rewrite (words_ok _ true _ L). cbn [rbind].
  assert (W : forall a, exists t r, item_words a = WStr t :: r) by (intros a; eexists; eexists; reflexivity).
  rewrite (list_words_sp item_words W l), (list_parse item_words require_accept_item norm_item item_ok) with (l := l); [|exact item_parse|exact W|exact G|].
  - cbn [rbind]. destruct l as [|a l]; [congruence|]. reflexivity.
  - pose proof (list_words_length item_words W l). lia.
Qed.

(** ** tokens *)
Definition token_words (t : atok) : list word := WStr (AnModel.token t) :: if tq t =? 1000 then [] else WByte 59 :: q_words (tq t).
Lemma token_lex : forall (tail : str -> list word -> Prop) t s l, token_ok t -> stop_tok s -> lexed tail false s l ->
  exists b, token_to_bytes t = Ok b /\ lexed tail false (b ++ s) (token_words t ++ l) /\ exists r, b = AnModel.token t ++ r.
Proof.
  intros tail t s l ([T A] & H) Hs L. unfold token_to_bytes, token_words. destruct (tq t =? 1000).
  - exists (AnModel.token t). rewrite app_nil_r, (ascii_ok _ A). split; [reflexivity|]. split; [apply lex_tok; assumption|]. exists []. rewrite app_nil_r. reflexivity.
  - destruct (fmt_q_ok (tq t) H) as [[Tq Aq] _]. exists (AnModel.token t ++ lit ";q=" ++ fmt_q (tq t)). rewrite ascii_ok.
    2:{ apply Forall_app. split; [exact A|]. apply Forall_app. split; [|exact Aq]. apply Forall_forall. intros c Hc. cbn in Hc. lia. }
    split; [reflexivity|]. split; [|eexists; reflexivity].
    replace ((AnModel.token t ++ lit ";q=" ++ fmt_q (tq t)) ++ s) with (AnModel.token t ++ 59 :: lit "q" ++ 61 :: fmt_q (tq t) ++ s) by (rewrite <- !app_assoc; reflexivity).
    cbn [app]. unfold q_words. cbn [app]. apply lex_tok; [exact T|exact (stop_sep 59 nil eq_refl)|]. apply lex_sep; [reflexivity|reflexivity|].
    change (113 :: 61 :: fmt_q (tq t) ++ s) with (lit "q" ++ 61 :: fmt_q (tq t) ++ s).
    apply lex_tok; [exact q_token|exact (stop_sep 61 nil eq_refl)|]. apply lex_sep; [reflexivity|reflexivity|]. apply lex_tok; assumption.
Qed.
Lemma token_parse : forall t l, token_ok t -> after l -> require_accept_token (token_words t ++ l) = Ok (t, l).
Proof.
  intros [t q] l ([T A] & H) HA. cbn [AnModel.token tq] in *. unfold require_accept_token, token_words. cbn [AnModel.token tq app]. rewrite parse_sp_str, (require_token_ok t _ T). cbn [rbind].
  rewrite (ascii_ok t A). cbn [rbind]. destruct (q =? 1000) eqn:E.
  - apply Z.eqb_eq in E. subst. cbn [app]. destruct HA as [->|[r ->]]; reflexivity.
  - change (parse_sp ((WByte 59 :: q_words q) ++ l)) with (WByte 59 :: q_words q ++ l). change (parse_separator 59 (WByte 59 :: ?x)) with (true, x). cbv iota beta.
    rewrite (require_q_ok q l H). reflexivity.
Qed.
Lemma token_round : forall t, token_ok t -> exists b, token_to_bytes t = Ok b /\ token_from_str b = Ok t.
Proof.
  intros t G. destruct (token_lex ending t [] [] G Logic.I (lex_end false)) as (b & E & L & _). exists b. split; [exact E|].
  unfold token_from_str. rewrite !app_nil_r in L. rewrite (words_ok b true (token_words t) L). cbn [rbind].
  change (parse_sp (token_words t)) with (token_words t). rewrite <- (app_nil_r (token_words t)), (token_parse t [] G) by (left; reflexivity). reflexivity.
Qed.
Lemma tokens_round : forall order l, Forall token_ok l -> exists bs, all_ok token_to_bytes l = Ok bs /\ tokens_from_str order (comma_sep bs) = Ok (order l).
Proof.
  intros order l G. destruct (list_lex token_words token_to_bytes token_ok AnModel.token) with (l := l) as (bs & E & L & _).
  { intros a ([T _] & _). exact T. } { intros. apply token_lex; assumption. } { exact G. }
  exists bs. split; [exact E|]. unfold tokens_from_str. rewrite (words_ok _ true _ L). cbn [rbind].
  assert (W : forall a, exists t r, token_words a = WStr t :: r) by (intros a; eexists; eexists; reflexivity).
  rewrite (list_words_sp token_words W l), (list_parse token_words require_accept_token (fun t => t) token_ok) with (l := l); [|exact token_parse|exact W|exact G|].
  - cbn [rbind require_end]. rewrite map_id. reflexivity.
  - pose proof (list_words_length token_words W l). lia.
Qed.
