(** Property C136: Cache-Control values. *)
From Coq Require Import Lia String Permutation Sorted.
From Verif Require Import AnModel Py Num UriModel UriRel HttpModel HttpSpec HttpProofs HttpLex HttpProps HttpParamModel HttpParamSpec HttpParamProofs HttpParamMain HttpParamParsed HttpParamProps HttpParamAccept AnProofs CrModel CrSpec CrProps CcModel CcSpec.
Open Scope Z_scope.

Definition low (x : str * cvalue) : str * cvalue := (b_lower (fst x), snd x).
Lemma loop_ok : forall args ds vs, Forall (fun x => latin (fst x)) args -> cc_loop args ds vs = Ok (CC (ds ++ map (fun x => b_lower (fst x)) args) (rev (map low args) ++ vs)).
Proof.
  induction args as [|[d v] r IH]; intros ds vs F; cbn [cc_loop]; [rewrite app_nil_r; reflexivity|]. inversion F as [|? ? Fd Fr]; subst. cbn [fst] in Fd. rewrite (bstr_ok d Fd). cbn [rbind]. rewrite (IH _ _ Fr). cbn [map rev]. rewrite <- !app_assoc. reflexivity.
Qed.
Lemma loop_inv : forall args ds vs c, cc_loop args ds vs = Ok c -> Forall (fun x => latin (fst x)) args.
Proof.
  induction args as [|[d v] r IH]; intros ds vs c H; [constructor|]. cbn [cc_loop] in H. destruct (bstr d) as [d'|] eqn:E; [|discriminate]. cbn [rbind] in H. apply bstr_inv in E as [_ E]. constructor; [exact E|]. eapply IH. exact H.
Qed.
Lemma loop_err : forall args ds vs e, cc_loop args ds vs = Err e -> e = UnicodeError.
Proof.
  induction args as [|[d v] r IH]; intros ds vs e H; [discriminate|]. cbn [cc_loop] in H. unfold bstr in H. destruct (forallb _ d); cbn [rbind] in H; [eapply IH; exact H|]. inversion H. reflexivity.
Qed.
(** which values can be made *)
Theorem made_exact : forall args, match new_cache_control args with
  | Ok c => args <> [] /\ Forall (fun x => latin (fst x)) args
  | Err e => e = TypeError /\ args = [] \/ e = UnicodeError /\ ~ Forall (fun x => latin (fst x)) args
  end.
Proof.
  intros args. destruct args as [|x r]; [left; auto|]. unfold new_cache_control. destruct (cc_loop (x :: r) [] []) as [c|e] eqn:E.
  - split; [discriminate|]. eapply loop_inv. exact E.
  - right. split; [eapply loop_err; exact E|]. intros F. rewrite (loop_ok _ _ _ F) in E. discriminate.
Qed.
Lemma made_is : forall args c, new_cache_control args = Ok c -> Forall (fun x => latin (fst x)) args /\ c = CC (map (fun x => b_lower (fst x)) args) (rev (map low args)).
Proof.
  intros args c H. pose proof (made_exact args) as M. rewrite H in M. destruct M as [N F]. split; [exact F|]. destruct args; [congruence|]. unfold new_cache_control in H. rewrite (loop_ok _ _ _ F) in H. inversion H. rewrite app_nil_r. reflexivity.
Qed.
Lemma look_app : forall a b d, cc_look (a ++ b) d = match cc_look a d with Ok v => Ok v | Err _ => cc_look b d end.
Proof. induction a as [|[e v] a IH]; intros b d; [reflexivity|]. cbn [app cc_look]. destruct (str_eqb e d); [reflexivity|apply IH]. Qed.
Lemma look_err : forall vs d e, cc_look vs d = Err e -> e = KeyError /\ forall x, In x vs -> fst x <> d.
Proof.
  induction vs as [|[k v] r IH]; intros d e H; cbn [cc_look] in H; [split; [congruence|contradiction]|]. destruct (str_eqb k d) eqn:E; [discriminate|]. apply IH in H as [-> H]. split; [reflexivity|]. intros x [<-|Hx]; [|apply H; exact Hx]. cbn [fst]. intros ->. rewrite str_eqb_refl in E. discriminate.
Qed.
Lemma look_none : forall vs d, (forall x, In x vs -> fst x <> d) -> cc_look vs d = Err KeyError.
Proof.
  induction vs as [|[k v] r IH]; intros d H; [reflexivity|]. cbn [cc_look]. destruct (str_eqb k d) eqn:E; [exfalso; apply str_eqb_eq in E; apply (H (k, v)); [left; reflexivity|exact E]|]. apply IH. intros x Hx. apply H. right. exact Hx.
Qed.
Lemma look_last : forall args name v, cc_look (rev (map low args)) (b_lower name) = Ok v <-> last_given args name v.
Proof.
  intros args name v. split.
  - induction args as [|[d w] args IH] using rev_ind; intros H; [discriminate|]. rewrite map_app, rev_app_distr in H. cbn [map rev app low fst snd cc_look] in H. destruct (str_eqb (b_lower d) (b_lower name)) eqn:E.
    + inversion H; subst w. apply str_eqb_eq in E. exists args, d, []. split; [reflexivity|]. split; [exact E|contradiction].
    + apply IH in H as (a & e & b & -> & S1 & S2). exists a, e, (b ++ [(d, w)]). split; [rewrite <- app_assoc; reflexivity|]. split; [exact S1|]. intros x Hx. apply in_app_or in Hx as [Hx|[<-|[]]]; [apply S2; exact Hx|]. cbn [fst]. unfold same_name. intros X. rewrite X, str_eqb_refl in E. discriminate.
  - intros (a & d & b & -> & E & N). rewrite map_app, rev_app_distr. cbn [map rev]. rewrite <- app_assoc. rewrite look_app. rewrite look_none.
    + cbn [app low fst snd cc_look]. rewrite E, str_eqb_refl. reflexivity.
    + intros x Hx. apply in_rev in Hx. apply in_map_iff in Hx as (y & <- & Hy). apply N in Hy. exact Hy.
Qed.
(** a directive's value, by name in any case, is that of the last directive of that name; if there is none it is an error *)
Theorem key_exact : forall args c key, new_cache_control args = Ok c -> latin key ->
  match cc_key c key with
  | Ok v => last_given args key v
  | Err e => e = KeyError /\ forall x, In x args -> ~ same_name (fst x) key
  end.
Proof.
  intros args c key H L. apply made_is in H as [_ ->]. unfold cc_key. cbn [cc_values]. rewrite (bstr_ok key L). cbn [rbind]. destruct (cc_look (rev (map low args)) (b_lower key)) as [v|e] eqn:E; [apply look_last; exact E|].
  apply look_err in E as [-> E]. split; [reflexivity|]. intros x Hx X. apply (E (low x)); [apply -> in_rev; apply in_map; exact Hx|exact X].
Qed.
Theorem key_only_one : forall args name v w, last_given args name v -> last_given args name w -> v = w.
Proof. intros args name v w H1 H2. apply look_last in H1. apply look_last in H2. congruence. Qed.
Theorem contains_exact : forall args c key, new_cache_control args = Ok c -> latin key -> exists b, cc_contains c key = Ok b /\ (b = true <-> exists x, In x args /\ same_name (fst x) key).
Proof.
  intros args c key H L. pose proof (key_exact args c key H L) as K. unfold cc_key in K. unfold cc_contains. rewrite (bstr_ok key L) in *. cbn [rbind] in *. eexists. split; [reflexivity|]. destruct (cc_look _ _) as [v|e].
  - split; [intros _|reflexivity]. destruct K as (a & d & b & -> & E & _). exists (d, v). split; [apply in_elt|exact E].
  - split; [discriminate|]. intros (x & Hx & X). destruct K as [_ K]. exfalso. exact (K x Hx X).
Qed.
(** ** the directives in order *)
Lemma lower_lower : forall s, b_lower (b_lower s) = b_lower s.
Proof. intros s. unfold b_lower. rewrite map_map. apply map_ext. intros c. unfold lower_c. destruct ((65 <=? c) && (c <=? 90)) eqn:E; [|rewrite E; reflexivity]. destruct ((65 <=? c + 32) && (c + 32 <=? 90)) eqn:E2; [b2p; lia|reflexivity]. Qed.
Definition listed (args : list (str * cvalue)) (x y : str * cvalue) : Prop := fst y = b_lower (fst x) /\ last_given args (fst x) (snd y).
Lemma iter_sub : forall args sub, (forall x, In x sub -> In x args) -> exists l, iter_loop (map (fun x => b_lower (fst x)) sub) (rev (map low args)) = Ok l /\ Forall2 (listed args) sub l.
Proof.
  intros args. induction sub as [|x sub IH]; intros H; [exists []; split; [reflexivity|constructor]|]. destruct IH as (l & E & F); [intros y Hy; apply H; right; exact Hy|]. cbn [map iter_loop].
  destruct (cc_look (rev (map low args)) (b_lower (fst x))) as [v|e] eqn:L.
  - cbn [rbind]. rewrite E. cbn [rbind]. eexists. split; [reflexivity|]. constructor; [|exact F]. split; [reflexivity|]. apply look_last. exact L.
  - apply look_err in L as [_ L]. exfalso. apply (L (low x)); [apply -> in_rev; apply in_map; apply H; left; reflexivity|reflexivity].
Qed.
(** there are as many directives as were given, in that order, names in lower case *)
Theorem iter_exact : forall args c, new_cache_control args = Ok c -> exists l, cc_iter c = Ok l /\ cc_len c = Z.of_nat (List.length l) /\ Forall2 (listed args) args l.
Proof.
  intros args c H. apply made_is in H as [_ ->]. destruct (iter_sub args args (fun x h => h)) as (l & E & F). exists l. split; [exact E|]. split; [|exact F]. unfold cc_len. cbn [cc_directives]. rewrite map_length. f_equal. clear - F. induction F; cbn; congruence.
Qed.
(** if no name is repeated they are what was given *)
Theorem distinct_exact : forall args c, new_cache_control args = Ok c -> NoDup (map (fun x => b_lower (fst x)) args) -> cc_iter c = Ok (map (fun x => (b_lower (fst x), snd x)) args).
Proof.
  intros args c H N. destruct (iter_exact args c H) as (l & -> & _ & F). f_equal. assert (X : forall x y, In x args -> listed args x y -> y = (b_lower (fst x), snd x)).
  { intros x [k v] Hx [K (a & d & b & E & S1 & S2)]. cbn [fst snd] in *. subst k. f_equal. rewrite E in Hx. rewrite E in N. rewrite map_app in N. cbn [map fst] in N. apply NoDup_remove_2 in N. apply in_app_or in Hx as [Hx|[<-|Hx]]; [|reflexivity|].
    - exfalso. apply N. apply in_or_app. left. unfold same_name in S1. rewrite S1. apply (in_map (fun x => b_lower (fst x))). exact Hx.
    - exfalso. apply (S2 x Hx). reflexivity. }
  clear H N. revert X F. generalize (listed args). intros R. revert l. induction args as [|x args IH]; intros l X F; inversion F as [|? y ? l2 Hy Fl]; subst; [reflexivity|]. cbn [map]. f_equal; [apply X; [left; reflexivity|exact Hy]|]. apply IH; [|exact Fl]. intros x0 y0 H0. apply X. right. exact H0.
Qed.
Lemma iter_nth : forall ds vs l, iter_loop ds vs = Ok l -> forall n, match nth_error ds n with None => nth_error l n = None | Some d => exists v, cc_look vs d = Ok v /\ nth_error l n = Some (d, v) end.
Proof.
  induction ds as [|d ds IH]; intros vs l H n; cbn [iter_loop] in H; [inversion H; destruct n; reflexivity|]. destruct (cc_look vs d) as [v|] eqn:E; [|discriminate]. cbn [rbind] in H. destruct (iter_loop ds vs) as [l2|] eqn:E2; [|discriminate]. cbn [rbind] in H. inversion H; subst.
  destruct n; cbn [nth_error]; [exists v; auto|]. apply IH. exact E2.
Qed.
(** by position, from either end *)
Theorem index_exact : forall args c i, new_cache_control args = Ok c -> exists l, cc_iter c = Ok l /\
  match cc_index c i with
  | Ok x => 0 <= i /\ nth_error l (Z.to_nat i) = Some x \/ i < 0 /\ 0 <= cc_len c + i /\ nth_error l (Z.to_nat (cc_len c + i)) = Some x
  | Err e => e = IndexError /\ (cc_len c <= i \/ i < - cc_len c)
  end.
Proof.
  intros args c i H. destruct (iter_exact args c H) as (l & E & L & _). exists l. split; [exact E|]. unfold cc_iter in E. pose proof (iter_nth _ _ _ E) as X. unfold cc_index. unfold cc_len in L. assert (LL : List.length (cc_directives c) = List.length l) by lia. clear L.
  destruct (i <? 0) eqn:I0; b2p.
  - destruct (Z.ltb_spec (i + cc_len c) 0) as [J|J]; [split; [reflexivity|lia]|]. specialize (X (Z.to_nat (i + cc_len c))). destruct (nth_error (cc_directives c) _) as [d|] eqn:D.
    + destruct X as (v & -> & X). cbn [rbind]. right. replace (cc_len c + i) with (i + cc_len c) by lia. repeat split; [lia|lia|exact X].
    + exfalso. apply nth_error_None in D. unfold cc_len in *. lia.
  - destruct (Z.ltb_spec i 0) as [J|J]; [lia|]. specialize (X (Z.to_nat i)). destruct (nth_error (cc_directives c) _) as [d|] eqn:D.
    + destruct X as (v & -> & X). cbn [rbind]. left. split; [lia|exact X].
    + split; [reflexivity|]. apply nth_error_None in D. unfold cc_len. lia.
Qed.

(** ** the text *)
Definition value_words (d : str) (v : cvalue) : list word :=
  match v with CNone => [WStr d] | CText s => [WStr d; WByte 61; WStr (quote_string s false)] | CTuple l => [WStr d; WByte 61; WStr (quote_string (comma_space l) true)] end.
Lemma ascii_all_ok : forall l, Forall ascii_token l -> ascii_all l = Ok l.
Proof. induction 1 as [|t l [_ A] F IH]; [reflexivity|]. cbn [ascii_all]. rewrite (HttpParamProofs.ascii_ok t A). cbn [rbind]. rewrite IH. reflexivity. Qed.
Lemma ascii_bytes : forall s, Forall (fun c => 0 <= c < 128) s -> bytes s.
Proof. intros s F. eapply Forall_impl; [|exact F]. intros c Hc. cbv beta in *. lia. Qed.
Lemma comma_bytes : forall l, Forall ascii_token l -> bytes (comma_space l).
Proof.
  induction 1 as [|t l [_ A] F IH]; [constructor|]. apply ascii_bytes in A. destruct l as [|u l]; [exact A|]. change (comma_space (t :: u :: l)) with (t ++ lit ", " ++ comma_space (u :: l)). apply Forall_app. split; [exact A|]. apply Forall_app. split; [|exact IH]. repeat constructor; lia.
Qed.
Lemma directive_lex : forall d v s l, token d -> good_value v -> stop_tok s -> lexed ending false s l ->
  exists t, directive_bytes d v = Ok t /\ t <> [] /\ no_lws (t ++ s) /\ lexed ending false (t ++ s) (value_words d v ++ l).
Proof.
  intros d v s l T G St L. assert (N : d <> []) by (destruct T; assumption). destruct v as [|x|x]; cbn [directive_bytes value_words].
  - exists d. split; [reflexivity|]. split; [exact N|]. split; [apply token_no_lws; exact T|]. apply lex_tok; assumption.
  - destruct G as [Nx A]. rewrite (HttpParamProofs.ascii_ok x A). cbn [rbind]. eexists. split; [reflexivity|]. split; [destruct d; [congruence|discriminate]|]. rewrite <- !app_assoc. split; [apply token_no_lws; exact T|].
    apply lex_tok; [exact T|exact (stop_sep 61 nil eq_refl)|]. apply (lex_sep ending false 61); [reflexivity|reflexivity|]. apply lex_value; [apply ascii_bytes; exact A|exact Nx|exact St|exact L].
  - rewrite (ascii_all_ok x G). cbn [rbind]. eexists. split; [reflexivity|]. split; [destruct d; [congruence|discriminate]|]. rewrite <- !app_assoc. split; [apply token_no_lws; exact T|].
    apply lex_tok; [exact T|exact (stop_sep 61 nil eq_refl)|]. apply (lex_sep ending false 61); [reflexivity|reflexivity|]. apply HttpParamProofs.lex_quoted; [apply comma_bytes; exact G|exact L].
Qed.
Lemma value_read : forall d v, token d -> good_value v -> exists o, directive_words (value_words d v) (d, o) /\ reads_as v o.
Proof.
  intros d v T G. destruct v as [|x|x]; cbn [value_words].
  - exists None. split; [constructor; exact T|exact Logic.I].
  - destruct G as [Nx A]. apply ascii_bytes in A. exists (Some x). split; [|reflexivity]. destruct (c37_unforced x A) as [H1 H2]. destruct (forall_tok_dec x) as [Tx|Tx].
    + rewrite (H1 Tx). apply dw_token; [exact T|split; assumption].
    + rewrite (H2 Tx). destruct (quote_head x) as [q E]. pose proof (c37_decode x A) as D. rewrite E in *. rewrite <- D. apply dw_quoted. exact T.
  - pose proof (comma_bytes x G) as B. exists (Some (comma_space x)). split.
    + destruct (quote_head (comma_space x)) as [q E]. pose proof (c37_decode (comma_space x) B) as D. rewrite E in *. rewrite <- D. apply dw_quoted. exact T.
    + exists (list_words x). split; [apply (list_round x G)|apply list_grammar; exact G].
Qed.
Lemma text_read : forall vs ds l, Forall token ds -> iter_loop ds vs = Ok l -> Forall (fun x => good_value (snd x)) l -> l <> [] ->
  exists ts ws r, directives_bytes ds vs = Ok ts /\ no_lws (comma_space ts) /\ lexed ending false (comma_space ts) ws /\ cache_words ws r /\ Forall2 (fun x y => fst y = fst x /\ reads_as (snd x) (snd y)) l r.
Proof.
  intros vs. induction ds as [|d ds IH]; intros l T E G N; cbn [iter_loop] in E; [inversion E; congruence|]. destruct (cc_look vs d) as [v|] eqn:V; [|discriminate]. cbn [rbind] in E. destruct (iter_loop ds vs) as [l2|] eqn:E2; [|discriminate]. cbn [rbind] in E. inversion E; subst l; clear E.
  inversion T as [|? ? Td Ts]; subst. inversion G as [|? ? Gv Gl]; subst. cbn [snd] in Gv. cbn [directives_bytes]. rewrite V. cbn [rbind]. destruct (value_read d v Td Gv) as (o & W & R). destruct ds as [|e ds].
  - cbn [iter_loop] in E2. inversion E2; subst. destruct (directive_lex d v [] [] Td Gv Logic.I (lex_end _)) as (t & -> & _ & Nl & L). cbn [rbind directives_bytes]. rewrite !app_nil_r in *. exists [t], (value_words d v), [(d, o)]. split; [reflexivity|]. split; [exact Nl|]. split; [exact L|]. split; [constructor; exact W|]. repeat constructor. exact R.
  - assert (N2 : l2 <> []). { intros ->. cbn [iter_loop] in E2. destruct (cc_look vs e); [|discriminate]. cbn [rbind] in E2. destruct (iter_loop ds vs); discriminate. }
    destruct (IH l2 Ts eq_refl Gl N2) as (ts & ws & r & D & Nl & L & C & F). assert (Nt : ts <> []). { intros ->. inversion F; subst; [congruence|]. cbn [directives_bytes] in D. destruct (cc_look vs e); [|discriminate]. cbn [rbind] in D. destruct (directive_bytes e _); [|discriminate]. cbn [rbind] in D. destruct (directives_bytes ds vs); discriminate. }
    destruct ts as [|t2 ts]; [congruence|]. destruct (directive_lex d v (44 :: 32 :: comma_space (t2 :: ts)) (WByte 44 :: ws) Td Gv (stop_sep 44 _ eq_refl)) as (t & -> & _ & Nl2 & L2).
    { apply lex_sep; [reflexivity|reflexivity|]. apply (lex_sp ending false); assumption. }
    cbn [rbind]. rewrite D. cbn [rbind]. exists (t :: t2 :: ts), (value_words d v ++ WByte 44 :: ws), ((d, o) :: r). split; [reflexivity|]. split; [exact Nl2|]. split; [exact L2|]. split; [constructor; assumption|]. constructor; [split; [reflexivity|exact R]|exact F].
Qed.
Lemma lower_tok : forall c, tok c -> tok (lower_c c).
Proof.
  intros c [H1 H2]. unfold lower_c. destr; [|split; assumption]. b2p. split.
  - intros [?|?]; lia.
  - intros [X|X]; [|lia]. cbn in X. repeat (destruct X as [X|X]; [lia|]). exact X.
Qed.
Lemma lower_token : forall t, token t -> token (b_lower t).
Proof.
  intros t [N F]. split; [destruct t; [congruence|discriminate]|]. unfold b_lower. rewrite Forall_map. eapply Forall_impl; [|exact F]. exact lower_tok.
Qed.
(** what is written is a Cache-Control header of the grammar, and it says what the directives are *)
Theorem text_says : forall args c, new_cache_control args = Ok c -> Forall (fun x => token (fst x) /\ good_value (snd x)) args ->
  exists s ws l r, cc_bytes c = Ok s /\ words_of s true = Ok ws /\ cache_words ws r /\ cc_iter c = Ok l /\ Forall2 (fun x y => fst y = fst x /\ reads_as (snd x) (snd y)) l r.
Proof.
  intros args c H G. destruct (iter_exact args c H) as (l & E & _ & F). pose proof (made_exact args) as M. rewrite H in M. destruct M as [N _]. apply made_is in H as [_ ->]. unfold cc_iter, cc_bytes in *. cbn [cc_directives cc_values] in *.
  assert (T : Forall token (map (fun x => b_lower (fst x)) args)). { rewrite Forall_map. eapply Forall_impl; [|exact G]. intros x [T _]. apply lower_token. exact T. }
  assert (Gl : Forall (fun x => good_value (snd x)) l). { assert (X : forall x y, listed args x y -> good_value (snd y)). { intros x y [_ (a & d & b & -> & _)]. rewrite Forall_forall in G. destruct (G (d, snd y)) as [_ Gy]; [apply in_elt|exact Gy]. }
    clear - X F. revert X F. generalize (listed args). intros R X F. induction F; constructor; eauto. }
  assert (Nl : l <> []) by (intros ->; inversion F; congruence). destruct (text_read _ _ l T E Gl Nl) as (ts & ws & r & D & _ & L & C & F2). exists (comma_space ts), ws, l, r. rewrite D. split; [reflexivity|]. split; [apply words_ok; exact L|]. auto.
Qed.
(** and the grammar can be read in one way only *)
Lemma token_not_quoted : forall q, ~ token (34 :: q).
Proof. intros q [_ F]. inversion F as [|? ? [_ X] _]; subst. apply X. left. cbn. tauto. Qed.
Lemma no_comma : forall ws x, directive_words ws x -> ~ In (WByte 44) ws.
Proof. intros ws x H X. inversion H; subst; cbn in X; intuition discriminate. Qed.
Lemma directive_once : forall ws x y, directive_words ws x -> directive_words ws y -> x = y.
Proof.
  intros ws x y H1 H2. inversion H1; subst; inversion H2; subst; try reflexivity; try (exfalso; eapply token_not_quoted; eassumption).
Qed.
Lemma comma_split : forall (a b : list word) r r2, ~ In (WByte 44) a -> ~ In (WByte 44) b -> a ++ WByte 44 :: r = b ++ WByte 44 :: r2 -> a = b /\ r = r2.
Proof.
  induction a as [|x a IH]; intros [|y b] r r2 Na Nb E; cbn in E.
  - inversion E. auto.
  - inversion E; subst. exfalso. apply Nb. left. reflexivity.
  - inversion E; subst. exfalso. apply Na. left. reflexivity.
  - inversion E; subst. destruct (IH b r r2) as [-> ->]; auto; intros X; [apply Na|apply Nb]; right; exact X.
Qed.
Theorem words_say_one : forall ws l m, cache_words ws l -> cache_words ws m -> l = m.
Proof.
  intros ws l m H. revert m. induction H as [ws x D|ws x r l D C IH]; intros m H2.
  - inversion H2 as [? y D2|ws2 y r2 l2 D2 C2]; subst; [f_equal; eapply directive_once; eassumption|]. exfalso. eapply no_comma; [exact D|]. apply in_elt.
  - inversion H2 as [? y D2 E|ws2 y r2 l2 D2 C2 E]; subst; [exfalso; eapply no_comma; [exact D2|]; apply in_elt|]. apply comma_split in E as [-> ->]; [|eapply no_comma; exact D2|eapply no_comma; exact D]. f_equal; [eapply directive_once; eassumption|apply IH; exact C2].
Qed.

(** ** What is not so *)
(** a directive that is repeated has its last value both times: the first is lost *)
Theorem repeated_refuted : exists c, new_cache_control [(lit "no-cache", CText (lit "a")); (lit "no-cache", CText (lit "b"))] = Ok c /\ cc_bytes c = Ok (lit "no-cache=b, no-cache=b").
Proof. eexists. split; [reflexivity|]. vm_compute. reflexivity. Qed.
(** an empty value is written as nothing, which is not a directive *)
Theorem empty_value_refuted : exists c ws, new_cache_control [(lit "x", CText [])] = Ok c /\ cc_bytes c = Ok (lit "x=") /\ words_of (lit "x=") true = Ok ws /\ forall r, ~ cache_words ws r.
Proof.
  eexists. exists [WStr (lit "x"); WByte 61]. split; [reflexivity|]. split; [vm_compute; reflexivity|]. split; [vm_compute; reflexivity|]. intros r H. inversion H as [? x D|ws x r2 l D C E]; subst; [inversion D|]. match type of E with ?a = ?b => assert (X : In (WByte 44) b) by (rewrite <- E; apply in_elt) end. cbn in X. intuition discriminate.
Qed.

(** ** Examples *)
Example ex_args : let args := [(lit "No-Store", CNone); (lit "max-age", CText (lit "3600")); (lit "private", CTuple [lit "Set-Cookie"; lit "x"]); (lit "ext", CText (lit "a b"))] in
  Forall (fun x => token (fst x) /\ good_value (snd x)) args /\ NoDup (map (fun x => b_lower (fst x)) args) /\
  exists c, new_cache_control args = Ok c /\ cc_bytes c = Ok (lit "no-store, max-age=3600, private=""Set-Cookie, x"", ext=""a b""") /\ cc_key c (lit "MAX-AGE") = Ok (CText (lit "3600")) /\ cc_key c (lit "s-maxage") = Err KeyError /\
  cc_index c (-1) = Ok (lit "ext", CText (lit "a b")) /\ cc_index c 4 = Err IndexError /\ cc_contains c (lit "no-STORE") = Ok true.
Proof.
  cbv zeta. split; [|split].
  - assert (T : forall s, existsb special s = false -> s <> [] -> token s) by (intros s H N; split; [exact N|apply special_tok; exact H]). assert (A : forall s, forallb (fun c => (0 <=? c) && (c <? 128)) s = true -> Forall (fun c => 0 <= c < 128) s) by (intros s H; apply Forall_forall; intros c Hc; rewrite forallb_forall in H; apply H in Hc; apply andb_true_iff in Hc as [H1 H2]; b2p; lia).
    assert (U : forall s, existsb special s = false -> s <> [] -> forallb (fun c => (0 <=? c) && (c <? 128)) s = true -> ascii_token s) by (intros s H1 H2 H3; split; auto).
    apply Forall_cons; [|apply Forall_cons; [|apply Forall_cons; [|apply Forall_cons; [|apply Forall_nil]]]]; (split; [apply T; [vm_compute; reflexivity|discriminate]|]); cbn [snd good_value].
    + exact Logic.I.
    + split; [discriminate|]. apply A. vm_compute. reflexivity.
    + apply Forall_cons; [|apply Forall_cons; [|apply Forall_nil]]; (apply U; [vm_compute; reflexivity|discriminate|vm_compute; reflexivity]).
    + split; [discriminate|]. apply A. vm_compute. reflexivity.
  - repeat constructor; cbn; intuition discriminate.
  - eexists. split; [reflexivity|]. repeat split; vm_compute; reflexivity.
Qed.
Print Assumptions made_exact.
Print Assumptions key_exact.
Print Assumptions key_only_one.
Print Assumptions contains_exact.
Print Assumptions iter_exact.
Print Assumptions distinct_exact.
Print Assumptions index_exact.
Print Assumptions text_says.
Print Assumptions words_say_one.
Print Assumptions repeated_refuted.
Print Assumptions empty_value_refuted.
