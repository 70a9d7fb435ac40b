(** Property C135: Content-Range, Accept-Ranges and Allow. *)
From Coq Require Import Lia String Permutation Sorted.
From Verif Require Import AnModel Py Num UriModel UriRel HttpModel HttpSpec HttpProofs HttpLex HttpProps HttpParamModel HttpParamSpec HttpParamProofs HttpParamMain HttpParamParsed HttpParamProps HttpParamAccept AnProofs CrModel CrSpec.
Open Scope Z_scope.

(** ** Content-Range *)
Lemma number_no_dash : forall w n, number_word w n -> ~ In 45 w.
Proof. intros w n (_ & F & _) X. rewrite Forall_forall in F. apply F in X. unfold dec_digit in X. lia. Qed.
Lemma number_digits : forall w n, number_word w n -> is_digits w = true.
Proof. intros w n (N & F & _). apply is_digits_ok; assumption. Qed.
Lemma number_token : forall w n, number_word w n -> token w.
Proof. intros w n (N & F & _). apply (digits_token w N F). Qed.
Lemma number_star : forall w n, number_word w n -> str_eqb w star = false.
Proof. intros w n (N & F & _). destruct (str_eqb w star) eqn:E; [|reflexivity]. apply str_eqb_eq in E. subst. inversion F as [|? ? D _]; subst. unfold dec_digit in D. lia. Qed.
Lemma number_of : forall n, 0 <= n -> number_word (dec_str n) n.
Proof. intros n H. rewrite dec_str_nat by exact H. destruct (dec_nat_spec n H) as (A1 & A2 & A3 & _). repeat split; [assumption..|symmetry; assumption]. Qed.
Lemma star_token : token star.
Proof. apply lit_token; [discriminate|reflexivity]. Qed.
Lemma spec_token : forall w f l, spec_word w f l -> token w.
Proof.
  intros w f l [(-> & _)|(a & b & m & n & -> & Ha & Hb & _)]; [exact star_token|]. destruct (number_token _ _ Ha) as [Na Fa]. destruct (number_token _ _ Hb) as [Nb Fb].
  split; [destruct a; discriminate|]. apply Forall_app. split; [exact Fa|]. constructor; [apply is_tok_tok; reflexivity|exact Fb].
Qed.
Lemma total_token : forall w t, total_word w t -> token w.
Proof. intros w t [(-> & _)|(n & H & _)]; [exact star_token|eapply number_token; exact H]. Qed.
Definition range_grammar (ws : list word) (r : crange) : Prop := exists u w t, ws = [WStr u; WStr w; WByte 47; WStr t] /\ token u /\ ascii_str u /\ u_lower u = lit "bytes" /\
  spec_word w (cr_first r) (cr_last r) /\ total_word t (cr_total r).
Lemma spec_star : forall a b, str_eqb (a ++ 45 :: b) star = false.
Proof. intros a b. destruct (str_eqb (a ++ 45 :: b) star) eqn:E; [|reflexivity]. apply str_eqb_eq in E. assert (X : In 45 star) by (rewrite <- E; apply in_or_app; right; left; reflexivity). cbn in X. intuition discriminate. Qed.
Lemma range_complete : forall ws r, range_grammar ws r -> require_contentrange (parse_sp ws) = Ok (r, []).
Proof.
  intros ws [f l tt] (u & w & t & -> & T & A & U & Hw & Ht). cbn [cr_first cr_last cr_total] in *. rewrite parse_sp_str. unfold require_contentrange. rewrite parse_sp_str, (require_token_ok u _ T). cbn [rbind].
  rewrite (HttpParamAccept.ascii_ok u A). cbn [rbind]. rewrite U. change (negb (str_eqb (lit "bytes") (lit "bytes"))) with false. cbv iota. rewrite parse_sp_str, (require_token_ok w _ (spec_token _ _ _ Hw)). cbn [rbind].
  assert (E1 : (if str_eqb w star then Ok (None, None) else match split_on 45 w with [a; b] => if is_digits a && is_digits b then Ok (Some (decimal a), Some (decimal b)) else Err BadSyntax | _ => Err BadSyntax end) = Ok (f, l)).
  { destruct Hw as [(-> & -> & ->)|(a & b & m & n & -> & Ha & Hb & -> & ->)]; [reflexivity|]. rewrite spec_star, split_app, split_no by (eapply number_no_dash; eassumption). rewrite (number_digits a m Ha), (number_digits b n Hb). cbn [andb]. destruct Ha as (_ & _ & ->). destruct Hb as (_ & _ & ->). reflexivity. }
  rewrite E1. cbn [rbind]. change (require_separator 47 (parse_sp (WByte 47 :: ?x))) with (Ok x). cbn [rbind]. rewrite parse_sp_str, (require_token_ok t _ (total_token _ _ Ht)). cbn [rbind].
  assert (E2 : (if str_eqb t star then Ok None else if is_digits t then Ok (Some (decimal t)) else Err BadSyntax) = Ok tt).
  { destruct Ht as [(-> & ->)|(n & H & ->)]; [reflexivity|]. rewrite (number_star t n H), (number_digits t n H). destruct H as (_ & _ & ->). reflexivity. }
  rewrite E2. cbn [rbind]. assert (E3 : new_range f l tt = Ok (CR f l tt)) by (destruct Hw as [(_ & -> & ->)|(a & b & m & n & _ & _ & _ & -> & ->)]; reflexivity). rewrite E3. reflexivity.
Qed.
Lemma digits_number : forall w, is_digits w = true -> number_word w (decimal w).
Proof. intros w H. apply is_digits_inv in H as [N F]. repeat split; assumption. Qed.
Lemma range_inv : forall ws r rest, fine ws -> spaces_ok false ws -> require_contentrange ws = Ok (r, rest) -> exists W, ws = W ++ rest /\ range_grammar W r.
Proof.
  intros ws r rest F Sp H. unfold require_contentrange in H. rewrite (spaces_false ws Sp) in H. destruct (require_token ws) as [[u l1]|] eqn:E1; [|discriminate]. cbn [rbind] in H. destruct (req_tok_fine _ _ _ F E1) as (F1 & T & _). apply req_tok_inv in E1. subst ws. apply (spaces_app false [WStr u]) in Sp.
  destruct (ascii u) as [u'|] eqn:A; [|discriminate]. cbn [rbind] in H. apply HttpParamAccept.ascii_inv in A as [-> A]. destruct (str_eqb (u_lower u) (lit "bytes")) eqn:U; [|discriminate]. cbn [negb] in H. apply str_eqb_eq in U. rewrite (spaces_false l1 Sp) in H.
  destruct (require_token l1) as [[w l2]|] eqn:E2; [|discriminate]. cbn [rbind] in H. apply req_tok_inv in E2. subst l1. apply (spaces_app false [WStr w]) in Sp.
  assert (X1 : exists f l, spec_word w f l /\ (if str_eqb w star then Ok (None, None) else match split_on 45 w with [a; b] => if is_digits a && is_digits b then Ok (Some (decimal a), Some (decimal b)) else Err BadSyntax | _ => Err BadSyntax end) = Ok (f, l)).
  { destruct (str_eqb w star) eqn:Es; [apply str_eqb_eq in Es; subst; exists None, None; split; [left; auto|reflexivity]|]. pose proof (join_split 45 w) as J. destruct (split_on 45 w) as [|a [|b [|c x]]]; try discriminate. destruct (is_digits a) eqn:Da; [|discriminate]. destruct (is_digits b) eqn:Db; [|discriminate].
    exists (Some (decimal a)), (Some (decimal b)). split; [|reflexivity]. right. exists a, b, (decimal a), (decimal b). split; [symmetry; exact J|]. split; [apply digits_number; exact Da|]. split; [apply digits_number; exact Db|]. split; reflexivity. }
  destruct X1 as (f & l & Hw & X1). rewrite X1 in H. cbn [rbind] in H. rewrite (spaces_false l2 Sp) in H. destruct (require_separator 47 l2) as [l3|] eqn:E3; [|discriminate]. cbn [rbind] in H. apply req_sep_inv in E3. subst l2. apply (spaces_app false [WByte 47]) in Sp. rewrite (spaces_false l3 Sp) in H.
  destruct (require_token l3) as [[t l4]|] eqn:E4; [|discriminate]. cbn [rbind] in H. apply req_tok_inv in E4. subst l3.
  assert (X2 : exists n, total_word t n /\ (if str_eqb t star then Ok None else if is_digits t then Ok (Some (decimal t)) else Err BadSyntax) = Ok n).
  { destruct (str_eqb t star) eqn:Es; [apply str_eqb_eq in Es; subst; exists None; split; [left; auto|reflexivity]|]. destruct (is_digits t) eqn:D; [|discriminate]. exists (Some (decimal t)). split; [|reflexivity]. right. exists (decimal t). split; [apply digits_number; exact D|reflexivity]. }
  destruct X2 as (n & Ht & X2). rewrite X2 in H. cbn [rbind] in H. assert (X3 : new_range f l n = Ok (CR f l n)) by (destruct Hw as [(_ & -> & ->)|(a & b & m & k & _ & _ & _ & -> & ->)]; reflexivity). rewrite X3 in H. cbn [rbind] in H. inversion H; subst.
  exists [WStr u; WStr w; WByte 47; WStr t]. split; [reflexivity|]. exists u, w, t. split; [reflexivity|]. repeat (split; [assumption|]). assumption.
Qed.
(** A range is read if and only if its words are of the grammar *)
Theorem range_exact : forall s r, bytes s -> range_parse s = Ok r <-> exists ws, words_of s true = Ok ws /\ range_grammar ws r.
Proof.
  intros s r B. unfold range_parse. destruct (words_of s true) as [ws|e] eqn:W; cbn [rbind].
  2:{ split; [discriminate|]. intros (ws & E & _). discriminate. }
  destruct (spaces_of _ _ _ B W) as [F Sp]. cbn [negb] in Sp. split.
  - intros H. rewrite (spaces_false ws Sp) in H. destruct (require_contentrange ws) as [[r' rest]|] eqn:E; [|discriminate]. cbn [rbind] in H. destruct (range_inv ws r' rest F Sp E) as (V & EV & HV). rewrite EV in Sp. apply spaces_app in Sp. rewrite (spaces_false rest Sp) in H. destruct rest; [|discriminate]. inversion H; subst r'. rewrite app_nil_r in EV. subst V. exists ws. auto.
  - intros (ws' & E & G). inversion E; subst ws'. rewrite (range_complete ws r G). reflexivity.
Qed.
Lemma range_words : forall r, range_ok r -> exists ws, words_of (range_str r) true = Ok ws /\ range_grammar ws r.
Proof.
  intros r [H1 H2]. assert (Tb : token (lit "bytes")) by (apply lit_token; [discriminate|reflexivity]).
  set (w := match cr_first r with None => star | Some f => dec_str f ++ lit "-" ++ int_str (cr_last r) end). set (t := match cr_total r with None => star | Some n => dec_str n end).
  assert (Hw : spec_word w (cr_first r) (cr_last r)).
  { unfold w. destruct (cr_first r) as [f|], (cr_last r) as [l|]; try contradiction; [right|left; auto]. destruct H1 as [H1 H3]. exists (dec_str f), (dec_str l), f, l. split; [reflexivity|]. split; [apply number_of; exact H1|]. split; [apply number_of; exact H3|]. split; reflexivity. }
  assert (Ht : total_word t (cr_total r)). { unfold t. destruct (cr_total r) as [n|]; [right|left; auto]. exists n. split; [apply number_of; exact H2|reflexivity]. }
  exists [WStr (lit "bytes"); WStr w; WByte 47; WStr t]. split.
  - apply words_ok. change (range_str r) with (lit "bytes" ++ 32 :: w ++ 47 :: t). apply lex_tok; [exact Tb|exact (stop_sep 32 nil eq_refl)|]. apply (lex_sp ending false); [apply token_no_lws; eapply spec_token; exact Hw|].
    apply lex_tok; [eapply spec_token; exact Hw|exact (stop_sep 47 nil eq_refl)|]. apply lex_sep; [reflexivity|reflexivity|]. rewrite <- (app_nil_r t) at 1. apply lex_tok; [eapply total_token; exact Ht|exact Logic.I|apply lex_end].
  - exists (lit "bytes"), w, t. split; [reflexivity|]. split; [exact Tb|]. split; [repeat constructor; reflexivity|]. split; [reflexivity|]. split; assumption.
Qed.
Theorem range_reads : forall r, range_ok r -> range_parse (range_str r) = Ok r.
Proof. intros r H. destruct (range_words r H) as (ws & W & G). unfold range_parse. rewrite W. cbn [rbind]. rewrite (range_complete ws r G). reflexivity. Qed.
(** what is read can be written, and is read again *)
Lemma number_pos : forall w n, number_word w n -> 0 <= n.
Proof. intros w n (_ & F & ->). apply decimal_nonneg. exact F. Qed.
Theorem range_made : forall s r, bytes s -> range_parse s = Ok r -> range_ok r /\ range_parse (range_str r) = Ok r.
Proof.
  intros s r B H. apply range_exact in H; [|exact B]. destruct H as (ws & _ & u & w & t & _ & _ & _ & _ & Hw & Ht). assert (R : range_ok r).
  { split.
    - destruct Hw as [(_ & -> & ->)|(a & b & m & n & _ & Ha & Hb & -> & ->)]; [exact Logic.I|]. split; eapply number_pos; eassumption.
    - destruct Ht as [(_ & ->)|(n & Hn & ->)]; [exact Logic.I|]. eapply number_pos. exact Hn. }
  split; [exact R|apply range_reads; exact R].
Qed.
Lemma range_err : forall s e, range_parse s = Err e -> e = ParserError \/ e = BadSyntax \/ e = UnicodeError.
Proof.
  intros s e H. unfold range_parse in H. destruct (words_of s true) as [ws|e1] eqn:W; cbn [rbind] in H.
  2:{ assert (X : te_list_from_str s = Err e) by (unfold te_list_from_str; rewrite W; cbn [rbind]; congruence). apply te_list_err in X. destruct X; auto. }
  assert (X : forall ws e, require_contentrange ws = Err e -> e = BadSyntax \/ e = UnicodeError).
  { clear. intros ws e H. unfold require_contentrange in H. destruct (require_token (parse_sp ws)) as [[u l1]|] eqn:E1; cbn [rbind] in H; [|inversion H; subst; left; eapply req_tok_err; exact E1]. destruct (ascii u) as [v|] eqn:A; cbn [rbind] in H; [|inversion H; subst; right; eapply ascii_err; exact A].
    destruct (negb _); cbn [rbind] in H; [inversion H; auto|]. destruct (require_token (parse_sp l1)) as [[w l2]|] eqn:E2; cbn [rbind] in H; [|inversion H; subst; left; eapply req_tok_err; exact E2].
    destruct (if str_eqb w star then _ else _) as [[f l]|] eqn:X1; cbn [rbind] in H.
    2:{ destruct (str_eqb w star); [discriminate|]. destruct (split_on 45 w) as [|a [|b [|c x]]]; try (inversion X1; inversion H; subst; auto; fail). destruct (is_digits a && is_digits b); inversion X1; inversion H; subst; auto. }
    destruct (require_separator 47 (parse_sp l2)) as [l3|] eqn:E3; cbn [rbind] in H; [|inversion H; subst; left; eapply req_sep_err; exact E3]. destruct (require_token (parse_sp l3)) as [[t l4]|] eqn:E4; cbn [rbind] in H; [|inversion H; subst; left; eapply req_tok_err; exact E4].
    destruct (if str_eqb t star then _ else _) as [n|] eqn:X2; cbn [rbind] in H; [|destruct (str_eqb t star); [discriminate|]; destruct (is_digits t); inversion X2; inversion H; subst; auto].
    assert (N : new_range f l n = Ok (CR f l n)). { destruct (str_eqb w star); [inversion X1; reflexivity|]. destruct (split_on 45 w) as [|a [|b [|c x]]]; try discriminate. destruct (is_digits a && is_digits b); inversion X1; reflexivity. }
    rewrite N in H. discriminate. }
  destruct (require_contentrange (parse_sp ws)) as [[r rest]|e1] eqn:E; cbn [rbind] in H; [|inversion H; subst; apply X in E; destruct E; auto]. destruct (require_end (parse_sp rest)) eqn:E2; cbn [rbind] in H; [discriminate|]. inversion H; subst. right. left. eapply end_err. exact E2.
Qed.
Theorem range_errors : forall s e, range_parse s = Err e -> e = ParserError \/ e = BadSyntax \/ e = UnicodeError.
Proof. exact range_err. Qed.
(** A range is valid if it has a byte, and all its bytes are in the entity *)
Theorem valid_exact : forall r, is_valid r = true <-> (exists i, in_range r i) /\ forall i, in_range r i -> in_entity r i.
Proof.
  intros [f l t]. unfold is_valid, in_range, in_entity. cbn [cr_first cr_last cr_total]. destruct f as [f|], l as [l|]; try (split; [discriminate|intros [[i H] _]; contradiction]). rewrite !andb_true_iff, !Z.leb_le. split.
  - intros [[H1 H2] H3]. split; [exists f; lia|]. intros i Hi. split; [lia|]. destruct t as [n|]; [apply Z.ltb_lt in H3; lia|exact Logic.I].
  - intros [[i Hi] H]. assert (Hf : f <= f <= l) by lia. assert (Hl : f <= l <= l) by lia. pose proof (H f Hf) as [F0 _]. pose proof (H l Hl) as [_ L0]. split; [split; lia|]. destruct t as [n|]; [apply Z.ltb_lt; exact L0|reflexivity].
Qed.
(** its length is the number of its bytes; if there are none it is an error *)
Theorem length_exact : forall r, (cr_first r <> None -> cr_last r <> None) ->
  match range_len r with
  | Ok n => exists l, NoDup l /\ (forall i, In i l <-> in_range r i) /\ n = Z.of_nat (List.length l) /\ l <> []
  | Err e => e = ValueError /\ forall i, ~ in_range r i
  end.
Proof.
  intros [f l t]. unfold range_len, in_range. cbn [cr_first cr_last]. destruct f as [f|]; [|intros _; split; auto]. destruct l as [l|]; [|intros H; exfalso; apply H; [discriminate|reflexivity]]. intros _. destruct (Z.ltb_spec 0 (l - f + 1)) as [L|L].
  - exists (map (fun k => f + Z.of_nat k) (seq 0 (Z.to_nat (l - f + 1)))). split; [|split; [|split]].
    + apply FinFun.Injective_map_NoDup; [|apply seq_NoDup]. intros x y E. lia.
    + intros i. rewrite in_map_iff. split; [intros (k & <- & Hk); apply in_seq in Hk; lia|]. intros Hi. exists (Z.to_nat (i - f)). split; [lia|]. apply in_seq. lia.
    + rewrite map_length, seq_length. lia.
    + destruct (Z.to_nat (l - f + 1)) eqn:E; [lia|discriminate].
  - split; [reflexivity|]. intros i Hi. lia.
Qed.

(** ** Lists of tokens *)
Lemma tokens_read : forall ws l, tokens_grammar ws l -> parse_tokenlist ws = Ok (l, []).
Proof.
  induction 1 as [|r l H IH|t r l T A H IH]; [reflexivity|exact IH|]. cbn [parse_tokenlist]. rewrite (parse_token_ok t r T), (HttpParamAccept.ascii_ok t A). cbn [rbind]. rewrite IH. reflexivity.
Qed.
Lemma tokens_inv : forall ws l, fine ws -> parse_tokenlist ws = Ok (l, []) -> tokens_grammar ws l.
Proof.
  induction ws as [|w ws IH]; intros l F H; [inversion H; constructor|]. cbn [parse_tokenlist] in H. destruct (parse_token (w :: ws)) as [[t|] r] eqn:E.
  - destruct (tok_fine _ _ _ F E) as [_ [T _]]. apply parse_tok_inv in E. inversion E; subst. inversion F as [|? ? _ F2]; subst. destruct (ascii t) as [t'|] eqn:A; [|discriminate]. cbn [rbind] in H. apply HttpParamAccept.ascii_inv in A as [-> A].
    destruct (parse_tokenlist r) as [[l2 r2]|] eqn:E2; [|discriminate]. cbn [rbind] in H. inversion H; subst. constructor; [exact T|exact A|]. apply IH; [exact F2|reflexivity].
  - inversion F as [|? ? _ F2]; subst. unfold parse_separator in H. destruct w as [b|s]; [|discriminate]. destruct (Z.eqb_spec b 44) as [->|N]; cbn [fst] in H; [|discriminate]. constructor. apply IH; assumption.
Qed.
Lemma tokens_ascii : forall ws l, tokens_grammar ws l -> Forall (fun t => token t /\ ascii_str t) l.
Proof. induction 1; auto. Qed.
Lemma bstr_ok : forall s, Forall (fun c => c < 256) s -> bstr s = Ok s.
Proof. intros s H. unfold bstr. replace (forallb _ s) with true; [reflexivity|]. symmetry. apply forallb_forall. intros c Hc. rewrite Forall_forall in H. apply Z.ltb_lt. apply H. exact Hc. Qed.
Lemma bstr_inv : forall s t, bstr s = Ok t -> t = s /\ Forall (fun c => c < 256) s.
Proof. intros s t H. unfold bstr in H. destruct (forallb _ s) eqn:E; [|discriminate]. split; [congruence|]. apply Forall_forall. intros c Hc. rewrite forallb_forall in E. apply Z.ltb_lt. apply E. exact Hc. Qed.
Lemma bstr_all_ok : forall l, Forall (Forall (fun c => c < 256)) l -> bstr_all l = Ok l.
Proof. induction 1 as [|s l H F IH]; [reflexivity|]. cbn [bstr_all]. rewrite (bstr_ok s H), IH. reflexivity. Qed.
Lemma bstr_all_inv : forall l m, bstr_all l = Ok m -> m = l /\ Forall (Forall (fun c => c < 256)) l.
Proof.
  induction l as [|s l IH]; intros m H; cbn [bstr_all] in H; [inversion H; auto|]. destruct (bstr s) as [s'|] eqn:E; [|discriminate]. cbn [rbind] in H. destruct (bstr_all l) as [l'|] eqn:E2; [|discriminate]. cbn [rbind] in H. inversion H; subst.
  destruct (IH l' eq_refl) as [-> F]. apply bstr_inv in E as [-> F1]. auto.
Qed.
Lemma grammar_bstr : forall ws l, tokens_grammar ws l -> bstr_all l = Ok l.
Proof. intros ws l H. apply bstr_all_ok. apply tokens_ascii in H. eapply Forall_impl; [|exact H]. intros t [_ A]. eapply Forall_impl; [|exact A]. intros c Hc. cbv beta in *. lia. Qed.
Fixpoint list_words (l : list str) : list word := match l with [] => [] | [a] => [WStr a] | a :: r => WStr a :: WByte 44 :: list_words r end.
Lemma list_lex : forall l, Forall token l -> lexed ending false (comma_space l) (list_words l).
Proof.
  induction 1 as [|t l T F IH]; [apply lex_end|]. destruct l as [|u l].
  - cbn [comma_space list_words]. rewrite <- (app_nil_r t) at 1. apply lex_tok; [exact T|exact Logic.I|apply lex_end].
  - change (comma_space (t :: u :: l)) with (t ++ 44 :: 32 :: comma_space (u :: l)). change (list_words (t :: u :: l)) with (WStr t :: WByte 44 :: list_words (u :: l)).
    apply lex_tok; [exact T|exact (stop_sep 44 nil eq_refl)|]. apply lex_sep; [reflexivity|reflexivity|]. apply (lex_sp ending false); [|exact IH]. inversion F; subst. destruct l; cbn [comma_space]; [rewrite <- (app_nil_r u)|]; apply token_no_lws; assumption.
Qed.
Lemma list_grammar : forall l, Forall ascii_token l -> tokens_grammar (list_words l) l.
Proof.
  induction 1 as [|t l [T A] F IH]; [constructor|]. assert (A' : Forall (fun c => c < 128) t) by (eapply Forall_impl; [|exact A]; intros c Hc; cbv beta in *; lia). destruct l as [|u l]; cbn [list_words]; repeat (constructor; try assumption).
Qed.
Lemma list_round : forall l, Forall ascii_token l -> words_of (comma_space l) true = Ok (list_words l) /\ parse_tokenlist (list_words l) = Ok (l, []).
Proof. intros l F. split; [apply words_ok; apply list_lex; eapply Forall_impl; [|exact F]; intros t [T _]; exact T|apply tokens_read; apply list_grammar; exact F]. Qed.

(** ** sorted lists are equal if and only if they are of the same members *)
Lemma strs_eqb_eq : forall a b, strs_eqb a b = true <-> a = b.
Proof.
  induction a as [|x a IH]; intros [|y b]; cbn [strs_eqb]; split; try congruence; try discriminate; auto.
  - intros H. apply andb_true_iff in H as [H1 H2]. apply str_eqb_eq in H1. apply IH in H2. congruence.
  - intros H. inversion H; subst. apply andb_true_iff. split; [apply str_eqb_refl|apply IH; reflexivity].
Qed.
Lemma sorted_unique : forall a b : list str, StronglySorted (fun x y => cmp_str x y <> Gt) a -> StronglySorted (fun x y => cmp_str x y <> Gt) b -> Permutation a b -> a = b.
Proof.
  induction a as [|x a IH]; intros b Ha Hb P; [apply Permutation_nil in P; congruence|]. destruct b as [|y b]; [apply Permutation_sym, Permutation_nil in P; discriminate|]. inversion Ha as [|? ? A1 A2]; subst. inversion Hb as [|? ? B1 B2]; subst.
  assert (E : x = y).
  { assert (Hx : In x (y :: b)) by (eapply Permutation_in; [exact P|left; reflexivity]). assert (Hy : In y (x :: a)) by (eapply Permutation_in; [symmetry; exact P|left; reflexivity]). destruct Hx as [Hx|Hx]; [congruence|]. destruct Hy as [Hy|Hy]; [congruence|].
    rewrite Forall_forall in A2, B2. specialize (A2 y Hy). specialize (B2 x Hx). apply cmp_str_eq. destruct good_str as [Ho _]. rewrite (Ho x y) in B2. destruct (cmp_str x y); cbn in *; congruence. }
  subst y. f_equal. apply IH; [exact A1|exact B1|]. eapply Permutation_cons_inv. exact P.
Qed.
Lemma sort_perm_eq : forall a b : list str, sort cmp_str a = sort cmp_str b <-> Permutation a b.
Proof.
  intros a b. destruct (sort_spec cmp_str good_str a) as [A1 A2]. destruct (sort_spec cmp_str good_str b) as [B1 B2]. split.
  - intros E. eapply perm_trans; [exact A2|]. rewrite E. symmetry. exact B2.
  - intros P. apply sorted_unique; [exact A1|exact B1|]. eapply perm_trans; [symmetry; exact A2|]. eapply perm_trans; [exact P|exact B2].
Qed.

(** ** Allow *)
Lemma upper_tok : forall c, tok c -> tok (upper_c c).
Proof.
  intros c [H1 H2]. unfold upper_c. destr; [|split; assumption]. b2p. split.
  - intros [?|?]; lia.
  - intros [X|X]; [|lia]. cbn in X. repeat (destruct X as [X|X]; [lia|]). exact X.
Qed.
Lemma upper_token : forall t, ascii_token t -> ascii_token (b_upper t).
Proof.
  intros t [[N F] A]. split; [split|].
  - destruct t; [congruence|discriminate].
  - unfold b_upper. rewrite Forall_map. eapply Forall_impl; [|exact F]. exact upper_tok.
  - unfold b_upper. rewrite Forall_map. eapply Forall_impl; [|exact A]. intros c Hc. cbv beta in *. unfold upper_c. destruct ((97 <=? c) && (c <=? 122)) eqn:E; [b2p; lia|exact Hc].
Qed.
Lemma upper_upper : forall t, b_upper (b_upper t) = b_upper t.
Proof. intros t. unfold b_upper. rewrite map_map. apply map_ext. intros c. unfold upper_c. destruct ((97 <=? c) && (c <=? 122)) eqn:E; [|rewrite E; reflexivity]. destruct ((97 <=? c - 32) && (c - 32 <=? 122)) eqn:E2; [b2p; lia|reflexivity]. Qed.
Lemma ascii_256 : forall l, Forall ascii_token l -> bstr_all l = Ok l.
Proof. intros l F. apply bstr_all_ok. eapply Forall_impl; [|exact F]. intros t [_ A]. eapply Forall_impl; [|exact A]. intros c Hc. cbv beta in *. lia. Qed.
Theorem allow_reads : forall args, Forall ascii_token args -> exists a, new_allow args = Ok a /\ allow_parse (allow_bytes a) = Ok a.
Proof.
  intros args F. exists (map b_upper args). unfold new_allow at 1. rewrite (ascii_256 args F). split; [reflexivity|]. assert (F2 : Forall ascii_token (map b_upper args)) by (rewrite Forall_map; eapply Forall_impl; [|exact F]; exact upper_token).
  destruct (list_round _ F2) as [W P]. unfold allow_parse, allow_bytes. rewrite W. cbn [rbind]. rewrite P. cbn [rbind require_end]. unfold new_allow. rewrite (ascii_256 _ F2). cbn [rbind]. rewrite map_map. f_equal. apply map_ext. exact upper_upper.
Qed.
(** exactly which headers are read; commas count for nothing *)
Theorem allow_exact : forall s a, bytes s -> allow_parse s = Ok a <-> exists ws l, words_of s true = Ok ws /\ tokens_grammar ws l /\ a = map b_upper l.
Proof.
  intros s a B. unfold allow_parse. destruct (words_of s true) as [ws|e] eqn:W; cbn [rbind].
  2:{ split; [discriminate|]. intros (ws & l & E & _). discriminate. }
  destruct (spaces_of _ _ _ B W) as [F _]. split.
  - intros H. destruct (parse_tokenlist ws) as [[l r]|] eqn:E; [|discriminate]. cbn [rbind] in H. destruct r; [|discriminate]. cbn [require_end rbind] in H. pose proof (tokens_inv ws l F E) as G. unfold new_allow in H. rewrite (grammar_bstr _ _ G) in H. cbn [rbind] in H. exists ws, l. split; [reflexivity|]. split; [exact G|congruence].
  - intros (ws' & l & E & G & ->). inversion E; subst ws'. rewrite (tokens_read _ _ G). cbn [rbind require_end]. unfold new_allow. rewrite (grammar_bstr _ _ G). reflexivity.
Qed.
(** a method is allowed if it was given, in whatever case *)
Theorem is_allowed_exact : forall args a m, new_allow args = Ok a -> Forall (fun c => c < 256) m -> exists b, is_allowed a m = Ok b /\ (b = true <-> exists x, In x args /\ b_upper x = b_upper m).
Proof.
  intros args a m H Hm. unfold new_allow in H. destruct (bstr_all args) as [l|] eqn:E; [|discriminate]. cbn [rbind] in H. apply bstr_all_inv in E as [-> _]. inversion H; subst. unfold is_allowed. rewrite (bstr_ok m Hm). cbn [rbind]. eexists. split; [reflexivity|].
  destruct (sort_spec cmp_str good_str (map b_upper args)) as [_ P]. fold (allow_sorted (map b_upper args)) in P. rewrite existsb_exists. split.
  - intros (x & Hx & Ex). apply str_eqb_eq in Ex. subst x. eapply Permutation_in in Hx; [|symmetry; exact P]. apply in_map_iff in Hx as (y & Ey & Hy). exists y. auto.
  - intros (x & Hx & Ex). exists (b_upper x). split; [eapply Permutation_in; [exact P|apply in_map; exact Hx]|]. rewrite Ex. apply str_eqb_refl.
Qed.
Theorem allow_equal : forall a b, allow_eqb a b = true <-> Permutation a b.
Proof. intros a b. unfold allow_eqb, allow_sorted. rewrite strs_eqb_eq. apply sort_perm_eq. Qed.

(** ** Accept-Ranges *)
Theorem ranges_read : forall args a, Forall ascii_token args -> new_ranges args = Ok a -> ranges_parse (ranges_bytes a) = Ok a.
Proof.
  intros args a F H. assert (H0 := H). unfold new_ranges in H. rewrite (ascii_256 args F) in H. cbn [rbind] in H.
  assert (E : a = [] \/ a = args) by (destruct (existsb _ _); [destruct (_ =? _)%nat; inversion H; auto|inversion H; auto]). destruct a as [|x a].
  - vm_compute. reflexivity.
  - destruct E as [E|E]; [discriminate|]. subst args. unfold ranges_parse, ranges_bytes. destruct (list_round _ F) as [W P]. rewrite W. cbn [rbind]. rewrite P. exact H0.
Qed.
Theorem ranges_exact : forall s a, bytes s -> ranges_parse s = Ok a <-> exists ws l, words_of s true = Ok ws /\ tokens_grammar ws l /\ l <> [] /\
  ((exists t, l = [t] /\ b_lower t = lit "none") /\ a = [] \/ (forall t, In t l -> b_lower t <> lit "none") /\ a = l).
Proof.
  assert (NR : forall l a, bstr_all l = Ok l -> l <> [] -> (new_ranges l = Ok a <-> (exists t, l = [t] /\ b_lower t = lit "none") /\ a = [] \/ (forall t, In t l -> b_lower t <> lit "none") /\ a = l)).
  { intros l a E N. unfold new_ranges. rewrite E. cbn [rbind]. unfold ar_lower. destruct (existsb (str_eqb (lit "none")) (map b_lower l)) eqn:X.
    - apply existsb_exists in X as (u & Hu & Eu). apply str_eqb_eq in Eu. subst u. apply in_map_iff in Hu as (t & Et & Ht). rewrite map_length. destruct (List.length l =? 1)%nat eqn:L.
      + apply Nat.eqb_eq in L. destruct l as [|y [|z l]]; try discriminate. destruct Ht as [->|[]]. split; [intros H; left; split; [exists t; auto|congruence]|]. intros [[_ ->]|[H _]]; [reflexivity|]. exfalso. apply (H t); [left; reflexivity|exact Et].
      + apply Nat.eqb_neq in L. split; [discriminate|]. intros [[(y & -> & _) _]|[H _]]; [cbn in L; lia|]. exfalso. exact (H t Ht Et).
    - assert (X2 : forall t, In t l -> b_lower t <> lit "none"). { intros t Ht Et. assert (Y : existsb (str_eqb (lit "none")) (map b_lower l) = true); [|congruence]. apply existsb_exists. exists (b_lower t). split; [apply in_map; exact Ht|]. rewrite Et. apply str_eqb_refl. }
      split; [intros H; right; split; [exact X2|congruence]|]. intros [[(t & -> & Et) _]|[_ ->]]; [|reflexivity]. exfalso. apply (X2 t); [left; reflexivity|exact Et]. }
  intros s a B. unfold ranges_parse. destruct (words_of s true) as [ws|e] eqn:W; cbn [rbind].
  2:{ split; [discriminate|]. intros (ws & l & E & _). discriminate. }
  destruct (spaces_of _ _ _ B W) as [F _]. split.
  - intros H. destruct (parse_tokenlist ws) as [[l r]|] eqn:E; [|discriminate]. cbn [rbind] in H. assert (N : l <> []) by (intros ->; discriminate). destruct r as [|x r]; [|destruct l; discriminate]. pose proof (tokens_inv ws l F E) as G. exists ws, l. split; [reflexivity|]. split; [exact G|]. split; [exact N|].
    apply NR; [eapply grammar_bstr; exact G|exact N|]. destruct l; [congruence|exact H].
  - intros (ws' & l & E & G & N & H). inversion E; subst ws'. rewrite (tokens_read _ _ G). cbn [rbind require_end]. apply (NR l a (grammar_bstr _ _ G) N) in H. destruct l; [congruence|exact H].
Qed.
Theorem ranges_equal : forall a b, ranges_eqb a b = true <-> Permutation (map b_lower a) (map b_lower b).
Proof. intros a b. unfold ranges_eqb, ar_sorted, ar_lower. rewrite strs_eqb_eq. apply sort_perm_eq. Qed.

(** ** What is not so *)
(** methods with no comma between them are read too *)
Theorem comma_refuted : allow_parse (lit "GET POST") = Ok [lit "GET"; lit "POST"].
Proof. vm_compute. reflexivity. Qed.
(** no Cache-Control header can be read *)
Theorem cache_control_refuted : forall s, exists e, cache_control_parse s = Err e.
Proof. intros s. unfold cache_control_parse. destruct (words_of s true) as [ws|e]; eexists; reflexivity. Qed.

(** ** Examples *)
Example ex_range : range_ok (CR (Some 0) (Some 499) (Some 1234)) /\ range_str (CR (Some 0) (Some 499) (Some 1234)) = lit "bytes 0-499/1234" /\ is_valid (CR (Some 0) (Some 499) (Some 1234)) = true /\ range_len (CR (Some 0) (Some 499) (Some 1234)) = Ok 500.
Proof. split; [unfold range_ok, number_ok; cbn [cr_first cr_last cr_total]; intuition lia|]. repeat split; vm_compute; reflexivity. Qed.
Example ex_unsatisfied : range_ok (CR None None (Some 1234)) /\ range_str (CR None None (Some 1234)) = lit "bytes */1234" /\ is_valid (CR None None (Some 1234)) = false.
Proof. split; [unfold range_ok, number_ok; cbn [cr_first cr_last cr_total]; intuition lia|]. split; vm_compute; reflexivity. Qed.
Example ex_reads : range_parse (lit " Bytes 007-9 / * ") = Ok (CR (Some 7) (Some 9) None) /\ range_parse (lit "bytes 1 - 2/3") = Err BadSyntax /\ range_parse (lit "bytes -2/3") = Err BadSyntax.
Proof. repeat split; vm_compute; reflexivity. Qed.
Example ex_allow : (let! a := new_allow [lit "get"; lit "Head"] in Ok (allow_bytes a)) = Ok (lit "GET, HEAD") /\ is_allowed [lit "GET"; lit "HEAD"] (lit "head") = Ok true /\ is_allowed [lit "GET"; lit "HEAD"] (lit "put") = Ok false /\ allow_parse [] = Ok [] /\ allow_eqb [lit "GET"; lit "HEAD"] [lit "HEAD"; lit "GET"] = true.
Proof. repeat split; vm_compute; reflexivity. Qed.
Example ex_ranges : ranges_parse (lit ",Bytes,,x") = Ok [lit "Bytes"; lit "x"] /\ ranges_parse (lit "None") = Ok [] /\ ranges_parse (lit "bytes, none") = Err BadSyntax /\ ranges_parse (lit ",") = Err BadSyntax.
Proof. repeat split; vm_compute; reflexivity. Qed.
Print Assumptions range_exact.
Print Assumptions range_reads.
Print Assumptions range_made.
Print Assumptions range_errors.
Print Assumptions valid_exact.
Print Assumptions length_exact.
Print Assumptions allow_reads.
Print Assumptions allow_exact.
Print Assumptions is_allowed_exact.
Print Assumptions allow_equal.
Print Assumptions ranges_read.
Print Assumptions ranges_exact.
Print Assumptions ranges_equal.
Print Assumptions comma_refuted.
Print Assumptions cache_control_refuted.
