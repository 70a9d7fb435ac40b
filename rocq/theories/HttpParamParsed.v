(** Proofs for C39: what the values made by parsing are, and the errors of parsing. *)
From Verif Require Import Py Num UriModel HttpModel HttpSpec HttpProofs HttpLex HttpProps HttpParamModel HttpParamSpec UriRel HttpParamProofs HttpParamMain.

(** what a word of a source may be, for the word parser *)
Definition wgood (w : word) : Prop :=
  match w with WByte _ => True | WStr t => bytes t /\ (token t \/ exists c r, t = c :: r /\ is_separator c = true) end.
Lemma ws_byte : forall c, ws c -> 0 <= c < 256.
Proof. intros c [->| ->]; lia. Qed.
Lemma qbody_bytes : forall b u, qbody b u -> bytes u.
Proof.
  unfold bytes. induction 1; try constructor; try assumption; try lia; try (apply ws_byte; assumption). constructor; [lia|assumption].
Qed.
Lemma cbody_bytes : forall b u, cbody b u -> bytes u.
Proof.
  unfold bytes. induction 1; try (constructor; [first [lia|apply ws_byte; assumption]|]; try assumption); [constructor| |].
  - constructor; [lia|assumption].
  - apply Forall_app. split; [assumption|constructor; [lia|assumption]].
Qed.
Lemma wrap_bytes : forall a z u, 0 <= a < 256 -> 0 <= z < 256 -> bytes u -> bytes (a :: u ++ [z]).
Proof. intros a z u Ha Hz H. constructor; [exact Ha|]. apply Forall_app. split; [exact H|]. constructor; [exact Hz|constructor]. Qed.
Lemma bytes_app_r : forall a b, bytes (a ++ b) -> bytes b.
Proof. intros a b H. apply Forall_app in H. apply H. Qed.
Lemma bytes_app_l : forall a b, bytes (a ++ b) -> bytes a.
Proof. intros a b H. apply Forall_app in H. apply H. Qed.
Lemma lexed_wgood : forall (tail : str -> list word -> Prop) sp s l, (forall s l, tail s l -> Forall wgood l) -> lexed tail sp s l -> bytes s -> Forall wgood l.
Proof.
  intros tail sp s l Ht H. induction H as [s l H|a s l Ha Hs H IH|c s l H1 H2 H3 H4 H IH|t s l Tt Hs H IH|raw u s l Hq H IH|raw u s l Hq H IH]; intros B.
  - eapply Ht, H.
  - apply bytes_app_r in B. destruct sp; [constructor; [exact I|]|]; auto.
  - constructor; [exact I|]. apply IH. inversion B; assumption.
  - constructor; [split; [apply bytes_app_l in B; exact B|left; exact Tt]|]. apply bytes_app_r in B. auto.
  - constructor; [|apply bytes_app_r in B; auto]. destruct Hq as (b & v & Hb & _ & ->). split; [apply wrap_bytes; [lia|lia|eapply qbody_bytes, Hb]|].
    right. exists 34, (v ++ [34]). split; reflexivity.
  - constructor; [|apply bytes_app_r in B; auto]. destruct Hq as (b & v & Hb & _ & ->). split; [apply wrap_bytes; [lia|lia|eapply cbody_bytes, Hb]|].
    right. exists 40, (v ++ [41]). split; reflexivity.
Qed.
Lemma words_wgood : forall s ig l, bytes s -> words_of s ig = Ok l -> Forall wgood l.
Proof.
  intros s ig l B H. apply c38_words in H; [|exact B]. destruct H as [H|H]; (eapply lexed_wgood; [|exact H|exact B]).
  - intros s0 l0 [_ ->]. constructor.
  - intros s0 l0 (b & u & Hb & _ & ->). constructor; [|constructor]. split; [constructor; [lia|eapply qbody_bytes, Hb]|]. right. exists 34, u. split; reflexivity.
Qed.

(** the operations of the word parser *)
Definition fine (l : list word) : Prop := Forall wgood l.
Lemma sep_fine : forall c l, fine l -> fine (snd (parse_separator c l)).
Proof. intros c [|[b|t] l] F; cbn; auto. destr; cbn; [inversion F; assumption|exact F]. Qed.
Lemma sp_fine : forall l, fine l -> fine (parse_sp l).
Proof. intros l. apply sep_fine. Qed.
Lemma req_sep_fine : forall c l r, fine l -> require_separator c l = Ok r -> fine r.
Proof.
  intros c l r F. unfold require_separator. pose proof (sep_fine c l F) as X. destruct (parse_separator c l) as [[|] y]; [|discriminate].
  intros E. inversion E. subst. exact X.
Qed.
Lemma tok_fine : forall l o r, fine l -> parse_token l = (o, r) -> fine r /\ match o with Some t => token t /\ bytes t | None => True end.
Proof.
  intros l o r F E. destruct l as [|[b|[|c t]] l]; cbn [parse_token] in E; try (inversion E; subst; split; [exact F|exact I]).
  destruct (is_separator c) eqn:S; inversion E; subst; [split; [exact F|exact I]|].
  inversion F as [|? ? BD F2]; subst. destruct BD as [B D]. split; [exact F2|]. split; [|exact B]. destruct D as [D|(c' & r' & D1 & D2)]; [exact D|]. inversion D1. congruence.
Qed.
Lemma req_tok_fine : forall l t r, fine l -> require_token l = Ok (t, r) -> fine r /\ token t /\ bytes t.
Proof.
  intros l t r F. unfold require_token. destruct (parse_token l) as [o y] eqn:E. destruct (tok_fine l o y F E) as [A B].
  destruct o as [u|]; [|discriminate]. intros X. inversion X; subst. split; assumption.
Qed.
Lemma unescape_bytes : forall s e, bytes s -> bytes (unescape e s).
Proof. induction s as [|b s IH]; intros e B; [constructor|]. inversion B; subst. cbn. destr; [apply IH; assumption|]. constructor; [assumption|]. apply IH. assumption. Qed.
Lemma removelast_bytes : forall s, bytes s -> bytes (removelast s).
Proof. intros s. unfold bytes. induction s as [|b s IH]; intros H; [constructor|]. inversion H; subst. cbn. destruct s; [constructor|]. constructor; auto. Qed.
Lemma quoted_fine : forall l o r, fine l -> parse_quoted_word l = (o, r) -> fine r /\ match o with Some t => bytes t | None => True end.
Proof.
  intros l o r F E. destruct l as [|[b|[|c t]] l]; cbn [parse_quoted_word] in E; try (inversion E; subst; split; [exact F|exact I]).
  destruct (c =? 34) eqn:S; inversion E; subst; [|split; [exact F|exact I]].
  inversion F as [|? ? BD F2]; subst. destruct BD as [B D]. split; [exact F2|].
  assert (Q : bytes (inner (c :: t))).
  { unfold inner. inversion B; subst. cbn [tl]. apply removelast_bytes. assumption. }
  unfold decode_quoted_string. destr; [apply unescape_bytes|]; exact Q.
Qed.
Definition parsed_param (p : str * (str * str)) : Prop :=
  let '(k, (n, v)) := p in token n /\ bytes n /\ k = u_lower n /\ bytes v.
Lemma one_fine : forall a q l k n v r, fine l -> one_parameter a false q l = Some (k, n, v, r) -> fine r /\ parsed_param (k, (n, v)).
Proof.
  intros a q l k n v r F E. unfold one_parameter in E. destruct (require_separator 59 (parse_sp l)) as [l1|] eqn:E1; [|discriminate].
  apply req_sep_fine in E1; [|apply sp_fine; exact F]. destruct (require_token (parse_sp l1)) as [[t l2]|] eqn:E2; [|discriminate].
  apply req_tok_fine in E2 as (F2 & T & B); [|apply sp_fine; exact E1]. cbn zeta iota in E.
  match type of E with (if ?c then _ else _) = _ => destruct c end; [discriminate|].
  destruct (require_separator 61 (if a then parse_sp l2 else l2)) as [l3|] eqn:E3; [|discriminate].
  apply req_sep_fine in E3; [|destruct a; [apply sp_fine|]; exact F2].
  destruct (parse_token (if a then parse_sp l3 else l3)) as [o l4] eqn:E4.
  assert (F3 : fine (if a then parse_sp l3 else l3)) by (destruct a; [apply sp_fine|]; exact E3).
  destruct (tok_fine _ _ _ F3 E4) as [F4 P4]. destruct o as [w|].
  - inversion E; subst. split; [exact F4|]. split; [exact T|]. split; [exact B|]. split; [reflexivity|apply P4].
  - destruct (parse_quoted_word (if a then parse_sp l3 else l3)) as [o l5] eqn:E5. destruct (quoted_fine _ _ _ F3 E5) as [F5 P5].
    destruct o as [w|]; [|discriminate]. inversion E; subst. split; [exact F5|]. split; [exact T|]. split; [exact B|]. split; [reflexivity|exact P5].
Qed.
Definition parsed_params (d : params) : Prop := NoDup (map fst d) /\ Forall parsed_param d.
Lemma dict_set_keys : forall k v d, map fst (dict_set k v d) = map fst d \/ (~ In k (map fst d) /\ map fst (dict_set k v d) = map fst d ++ [k]).
Proof.
  intros k v. induction d as [|[k' v'] d IH]; [right; split; [intros []|reflexivity]|]. cbn. destruct (str_eqb k k') eqn:E.
  - apply str_eqb_eq in E. subst. left. reflexivity.
  - apply str_eqb_neq in E. cbn. destruct IH as [IH|[N IH]]; rewrite IH; [left; reflexivity|right]. split; [|reflexivity]. intros [H|H]; [congruence|contradiction].
Qed.
Lemma dict_set_parsed : forall k v d, parsed_params d -> parsed_param (k, v) -> parsed_params (dict_set k v d).
Proof.
  intros k v d [N F] P. split.
  - destruct (dict_set_keys k v d) as [E|[H E]]; rewrite E; [exact N|]. apply (Permutation.Permutation_NoDup (Permutation.Permutation_cons_append (map fst d) k)). constructor; assumption.
  - clear N. induction F as [|[k' v'] d H F IH]; [constructor; [exact P|constructor]|]. cbn. destr; constructor; assumption.
Qed.

Lemma loop_parsed : forall f a q d l d' r, fine l -> parsed_params d -> parameters_loop f a false q d l = (d', r) -> parsed_params d' /\ fine r.
Proof.
  induction f as [|f IH]; intros a q d l d' r F P E; cbn [parameters_loop] in E; [inversion E; subst; split; assumption|].
  destruct (one_parameter a false q l) as [[[[k n] v] l']|] eqn:E1; [|inversion E; subst; split; assumption].
  destruct (one_fine _ _ _ _ _ _ _ F E1) as [F2 P2]. eapply IH; [exact F2| |exact E]. apply dict_set_parsed; assumption.
Qed.
Lemma parse_parsed : forall a q l d' r, fine l -> parse_parameters a false q [] l = (d', r) -> parsed_params d' /\ fine r.
Proof.
  intros a q l d' r F E. unfold parse_parameters in E. eapply loop_parsed; [apply sp_fine; exact F| |exact E]. split; constructor.
Qed.
Lemma ascii_inv : forall s u, bytes s -> ascii s = Ok u -> u = s /\ isA s.
Proof.
  intros s u B. unfold ascii. destruct (forallb (fun c => c <? 128) s) eqn:E; [|discriminate]. intros X. inversion X; subst. split; [reflexivity|].
  apply Forall_forall. intros c Hc. rewrite forallb_forall in E. apply E in Hc as H. b2p. unfold bytes in B. rewrite Forall_forall in B. apply B in Hc. lia.
Qed.
Lemma lower_bytes : forall s, bytes s -> bytes (b_lower s).
Proof. intros s B. apply Forall_map. eapply Forall_impl; [|exact B]. intros c Hc. cbn beta in *. unfold lower_c. destruct ((65 <=? c) && (c <=? 90)) eqn:E; b2p; lia. Qed.

Lemma mt_parsed : forall s m, bytes s -> mt_from_str s = Ok m ->
  ascii_token (mt_type m) /\ ascii_token (mt_subtype m) /\ parsed_params (mt_params m).
Proof.
  intros s m B E. unfold mt_from_str in E. destruct (words_of s false) as [ws|] eqn:W; [|discriminate]. cbn [rbind] in E.
  apply words_wgood in W; [|exact B]. unfold require_media_type in E.
  destruct (require_token (parse_sp ws)) as [[t l1]|] eqn:E1; [|discriminate]. apply req_tok_fine in E1 as (F1 & T1 & B1); [|apply sp_fine; exact W]. cbn [rbind] in E.
  destruct (ascii (b_lower t)) as [t'|] eqn:A1; [|discriminate]. cbn [rbind] in E. apply ascii_inv in A1 as [-> A1]; [|apply lower_bytes; exact B1].
  destruct (require_separator 47 l1) as [l2|] eqn:E2; [|discriminate]. cbn [rbind] in E. apply req_sep_fine in E2; [|exact F1].
  destruct (require_token l2) as [[u l3]|] eqn:E3; [|discriminate]. cbn [rbind] in E. apply req_tok_fine in E3 as (F3 & T3 & B3); [|exact E2].
  destruct (ascii (b_lower u)) as [u'|] eqn:A3; [|discriminate]. cbn [rbind] in E. apply ascii_inv in A3 as [-> A3]; [|apply lower_bytes; exact B3].
  destruct (parse_parameters false false None [] (parse_sp l3)) as [d l4] eqn:E4. apply parse_parsed in E4 as [P F4]; [|apply sp_fine; exact F3]. cbn [rbind] in E.
  destruct (require_end (parse_sp l4)); [|discriminate]. cbn in E. inversion E. cbn.
  split; [split; [apply b_lower_token; exact T1|exact A1]|]. split; [split; [apply b_lower_token; exact T3|exact A3]|exact P].
Qed.
Lemma te_req_parsed : forall l t r, fine l -> require_transfer_encoding l = Ok (t, r) -> fine r /\
  exists tk p, t = new_te tk p /\ token tk /\ bytes tk /\ parsed_params p.
Proof.
  intros l t r F E. unfold require_transfer_encoding in E. destruct (require_token (parse_sp l)) as [[k l1]|] eqn:E1; [|discriminate]. cbn [rbind] in E.
  apply req_tok_fine in E1 as (F1 & T1 & B1); [|apply sp_fine; exact F]. cbn zeta in E. destruct (str_eqb (b_lower k) (lit "chunked")) eqn:C; cbn [negb] in E.
  - inversion E; subst. split; [exact F1|]. apply str_eqb_eq in C. exists (b_lower k), []. rewrite C. split; [reflexivity|]. rewrite <- C.
    split; [apply b_lower_token; exact T1|]. split; [apply lower_bytes; exact B1|]. split; constructor.
  - destruct (parse_parameters true false None [] l1) as [p l2] eqn:E2. apply parse_parsed in E2 as [P F2]; [|exact F1]. inversion E; subst. split; [exact F2|].
    exists (b_lower k), p. split; [reflexivity|]. split; [apply b_lower_token; exact T1|]. split; [apply lower_bytes; exact B1|exact P].
Qed.
Lemma te_parsed : forall s t, bytes s -> te_from_str s = Ok t -> exists tk p, t = new_te tk p /\ token tk /\ bytes tk /\ parsed_params p.
Proof.
  intros s t B E. unfold te_from_str in E. destruct (words_of s true) as [ws|] eqn:W; [|discriminate]. cbn [rbind] in E.
  apply words_wgood in W; [|exact B]. destruct (require_transfer_encoding ws) as [[t' l]|] eqn:E1; [|discriminate]. cbn [rbind] in E.
  destruct (require_end l); [|discriminate]. cbn in E. inversion E; subst. eapply te_req_parsed; eassumption.
Qed.
Lemma hexadecimal_nonneg : forall s, is_hexdigits s = true -> 0 <= hexadecimal s.
Proof.
  intros s H. unfold is_hexdigits, all_of in H. destruct s as [|c s]; [discriminate|]. revert H. generalize (c :: s). clear. 
  induction l as [|c l IH]; intros H; [cbn; lia|]. cbn [forallb] in H. apply andb_true_iff in H as [H1 H2]. cbn [hexadecimal].
  assert (0 <= hexv c) by (unfold is_hex, is_digit in H1; unfold hexv; rewrite !orb_true_iff, !andb_true_iff, !Z.leb_le in H1; destruct (Z.leb_spec c 57); [lia|]; destruct (Z.leb_spec c 70); lia). specialize (IH H2). pose proof (Z.pow_nonneg 16 (Z.of_nat (length l))). nia.
Qed.
Lemma chunk_parsed : forall s c, bytes s -> chunk_from_str s = Ok c -> 0 <= c_size c /\ parsed_params (c_ext c).
Proof.
  intros s c B E. unfold chunk_from_str in E. destruct (words_of s true) as [ws|] eqn:W; [|discriminate]. cbn [rbind] in E.
  apply words_wgood in W; [|exact B]. unfold require_chunk, require_hexinteger in E. apply sp_fine in W. destruct (parse_sp ws) as [|[b|t] r]; cbn [parse_hexinteger rbind] in E; try discriminate.
  inversion W as [|? ? _ F]; subst. destruct (is_hexdigits t) eqn:H; cbn [rbind] in E; [|discriminate].
  destruct (parse_parameters true false None [] r) as [p l] eqn:E2. apply parse_parsed in E2 as [P _]; [|exact F]. cbn [rbind] in E.
  destruct (require_end l); [|discriminate]. inversion E. cbn. split; [apply hexadecimal_nonneg; exact H|exact P].
Qed.
Lemma pt_req_parsed : forall l p r, fine l -> require_product_token l = Ok (p, r) -> fine r /\ good_pt p.
Proof.
  intros l p r F E. unfold require_product_token in E. destruct (require_token (parse_sp l)) as [[t l1]|] eqn:E1; [|discriminate]. cbn [rbind] in E.
  apply req_tok_fine in E1 as (F1 & T1 & B1); [|apply sp_fine; exact F]. destruct (ascii t) as [t'|] eqn:A1; [|discriminate]. cbn [rbind] in E. apply ascii_inv in A1 as [-> A1]; [|exact B1].
  pose proof (sep_fine 47 (parse_sp l1) (sp_fine l1 F1)) as F2. destruct (parse_separator 47 (parse_sp l1)) as [[|] l2]; cbn [snd] in F2.
  - destruct (require_token l2) as [[v l3]|] eqn:E3; [|discriminate]. cbn [rbind] in E. apply req_tok_fine in E3 as (F3 & T3 & B3); [|exact F2].
    destruct (ascii v) as [v'|] eqn:A3; [|discriminate]. cbn [rbind] in E. apply ascii_inv in A3 as [-> A3]; [|exact B3]. inversion E; subst.
    split; [exact F3|]. split; cbn; split; assumption.
  - inversion E; subst. split; [exact F2|]. split; cbn; [split; assumption|exact I].
Qed.
Lemma pt_parsed : forall s p, bytes s -> pt_from_str s = Ok p -> good_pt p.
Proof.
  intros s p B E. unfold pt_from_str in E. destruct (words_of s true) as [ws|] eqn:W; [|discriminate]. cbn [rbind] in E.
  apply words_wgood in W; [|exact B]. destruct (require_product_token (parse_sp ws)) as [[p' l]|] eqn:E1; [|discriminate]. cbn [rbind] in E.
  apply pt_req_parsed in E1 as [_ G]; [|apply sp_fine; exact W]. destruct (require_end (parse_sp l)); [|discriminate]. inversion E; subst. exact G.
Qed.
Lemma pt_list_parsed : forall s l, bytes s -> pt_list_from_str s = Ok l -> Forall good_pt l.
Proof.
  intros s l B E. unfold pt_list_from_str in E. destruct (words_of s true) as [ws|] eqn:W; [|discriminate]. cbn [rbind] in E.
  apply words_wgood in W; [|exact B]. apply sp_fine in W. revert W l E. generalize (parse_sp ws). generalize (length ws). clear. 
  induction n as [|n IH]; intros w W l E; [destruct w; inversion E; constructor|]. destruct w as [|x w]; [inversion E; constructor|].
  cbn [pt_list_loop] in E. destruct (require_product_token (x :: w)) as [[p r]|] eqn:E1; [|discriminate]. cbn [rbind] in E.
  apply pt_req_parsed in E1 as [F G]; [|exact W]. destruct (pt_list_loop n (parse_sp r)) as [l'|] eqn:E2; [|discriminate]. inversion E; subst.
  constructor; [exact G|]. eapply IH; [apply sp_fine; exact F|exact E2].
Qed.
Lemma ascii_all_inv : forall l u, Forall bytes l -> ascii_all l = Ok u -> u = l /\ Forall isA l.
Proof.
  induction l as [|s l IH]; intros u F E; [inversion E; split; constructor|]. inversion F; subst. cbn in E. destruct (ascii s) as [s'|] eqn:A; [|discriminate].
  apply ascii_inv in A as [-> A]; [|assumption]. cbn [rbind] in E. destruct (ascii_all l) as [l'|]; [|discriminate]. destruct (IH l') as [-> F']; [assumption|reflexivity|].
  inversion E. split; [reflexivity|constructor; assumption].
Qed.

Lemma lt_parsed : forall s t, bytes s -> lt_from_str s = Ok t ->
  Forall (Forall tagchar) (lt_primary t :: lt_subtags t) /\ (lt_primary t <> [] \/ lt_subtags t <> []).
Proof.
  intros s t B E. unfold lt_from_str in E. destruct (words_of s false) as [ws|] eqn:W; [|discriminate]. cbn [rbind] in E.
  apply words_wgood in W; [|exact B]. unfold require_language_tag in E.
  destruct (require_token (parse_sp (parse_sp ws))) as [[k l1]|] eqn:E1; [|discriminate]. cbn [rbind] in E.
  apply req_tok_fine in E1 as (F1 & T1 & B1); [|apply sp_fine, sp_fine; exact W].
  assert (FB : Forall bytes (split_on 45 k) /\ Forall (Forall tok) (split_on 45 k)).
  { destruct T1 as [_ T1]. unfold bytes in *. rewrite <- (join_split 45 k) in B1, T1. revert B1 T1. generalize (split_on 45 k). clear.
    induction l as [|w l IH]; intros H1 H2; [split; constructor|]. destruct l as [|x l].
    - cbn [join_on] in *. split; constructor; auto.
    - change (join_on 45 (w :: x :: l)) with (w ++ 45 :: join_on 45 (x :: l)) in *. apply Forall_app in H1 as [H1 H1'], H2 as [H2 H2'].
      inversion H1'; inversion H2'; subst. destruct IH as [A C]; [assumption|assumption|]. split; constructor; assumption. }
  destruct FB as [FB FT]. destruct (ascii_all (split_on 45 k)) as [tags|] eqn:A; [|discriminate]. apply ascii_all_inv in A as [-> A]; [|exact FB]. cbn [rbind] in E.
  pose proof (join_split 45 k) as J. assert (NH : Forall (fun x => ~ In 45 x) (split_on 45 k)) by (apply Forall_forall; intros x; apply split_in).
  destruct (split_on 45 k) as [|p l] eqn:S; [discriminate|]. cbn [rbind] in E. destruct (require_end (parse_sp (parse_sp l1))); [|discriminate]. inversion E; subst t. cbn.
  split.
  - apply Forall_forall. intros x Hx. rewrite Forall_forall in A, FT, NH. specialize (A x Hx). specialize (FT x Hx). specialize (NH x Hx).
    apply Forall_forall. intros c Hc. unfold isA in A. rewrite Forall_forall in A, FT. split; [auto|]. split; [apply A; exact Hc|]. intros ->. contradiction.
  - destruct l as [|y l]; [left|right; discriminate]. intros ->. cbn in J. destruct T1 as [T1 _]. congruence.
Qed.
Lemma et_parsed : forall s e, bytes s -> et_from_str s = Ok e -> bytes (et_tag e).
Proof.
  intros s e B E. unfold et_from_str in E. destruct (words_of s true) as [ws|] eqn:W; [|discriminate]. cbn [rbind] in E.
  apply words_wgood in W; [|exact B]. unfold require_entity_tag in E. destruct (parse_token (parse_sp ws)) as [o l1] eqn:E1.
  apply tok_fine in E1 as [F1 _]; [|apply sp_fine; exact W]. apply sp_fine in F1.
  match type of E with context [rbind ?m ?f] => match m with match o with _ => _ end => destruct m as [[wk l2]|] eqn:E2 end end; [|discriminate]. cbn [rbind] in E.
  assert (F2 : fine l2).
  { destruct o as [w|]; [|inversion E2; subst; exact F1]. destruct (negb (str_eqb (b_upper w) (lit "W"))); [discriminate|].
    destruct (require_separator 47 (parse_sp l1)) as [l3|] eqn:E3; [|discriminate]. cbn in E2. inversion E2; subst. apply sp_fine. eapply req_sep_fine; [|exact E3]. exact F1. }
  destruct (parse_quoted_word l2) as [q l4] eqn:E4. apply quoted_fine in E4 as [_ Q]; [|exact F2]. destruct q as [t|]; [|discriminate]. cbn [rbind] in E.
  destruct (require_end (parse_sp l4)); [|discriminate]. inversion E. exact Q.
Qed.

(** ** Errors *)
Lemma req_tok_err : forall l e, require_token l = Err e -> e = BadSyntax.
Proof. intros l e. unfold require_token. destruct (parse_token l) as [[t|] r]; [discriminate|]. intros E. inversion E. reflexivity. Qed.
Lemma req_sep_err : forall c l e, require_separator c l = Err e -> e = BadSyntax.
Proof. intros c l e. unfold require_separator. destruct (parse_separator c l) as [[|] r]; [discriminate|]. intros E. inversion E. reflexivity. Qed.
Lemma end_err : forall l e, require_end l = Err e -> e = BadSyntax.
Proof. intros [|w l] e E; [discriminate|]. inversion E. reflexivity. Qed.
Lemma ascii_err : forall s e, ascii s = Err e -> e = UnicodeError.
Proof. intros s e. unfold ascii. destruct (forallb _ s); [discriminate|]. intros E. inversion E. reflexivity. Qed.
Lemma ascii_all_err : forall l e, ascii_all l = Err e -> e = UnicodeError.
Proof.
  induction l as [|s l IH]; intros e E; [discriminate|]. cbn in E. destruct (ascii s) eqn:A; cbn [rbind] in E; [|inversion E; subst; eapply ascii_err, A].
  destruct (ascii_all l) eqn:A2; cbn [rbind] in E; [discriminate|]. inversion E; subst. apply IH. reflexivity.
Qed.
Definition syntax (e : exn) : Prop := e = ParserError \/ e = BadSyntax.
Ltac err_end E :=
  inversion E; subst; unfold syntax;
  try (left; eapply c38_error; eassumption);
  try (right; reflexivity);
  try (right; eapply req_tok_err; eassumption);
  try (right; eapply req_sep_err; eassumption);
  try (right; eapply end_err; eassumption).
Ltac uni_end E :=
  first [solve [left; err_end E]|right; inversion E; subst; first [eapply ascii_err; eassumption|eapply ascii_all_err; eassumption]].

Lemma version_err : forall s e, version_from_str s = Err e -> syntax e.
Proof.
  intros s e E. unfold version_from_str in E. destruct (words_of s true) as [ws|e1] eqn:W; cbn [rbind] in E; [|err_end E].
  unfold require_http_version in E. destruct (require_token (parse_sp ws)) as [[t l]|e1] eqn:E1; cbn [rbind] in E; [|err_end E].
  destruct (negb (str_eqb (b_upper t) (lit "HTTP"))); cbn [rbind] in E; [err_end E|]. destruct (require_separator 47 (parse_sp l)) as [l2|e1] eqn:E2; cbn [rbind] in E; [|err_end E].
  destruct (require_token (parse_sp l2)) as [[u l3]|e1] eqn:E3; cbn [rbind] in E; [|err_end E].
  destruct (split_on 46 u) as [|a [|b [|c x]]]; cbn [rbind] in E; try (err_end E; fail).
  destruct (is_digits a && is_digits b); cbn [rbind] in E; [|err_end E]. destruct (require_end l3) eqn:E4; cbn [rbind] in E; [discriminate|err_end E].
Qed.
Lemma te_req_err : forall l e, require_transfer_encoding l = Err e -> e = BadSyntax.
Proof.
  intros l e E. unfold require_transfer_encoding in E. destruct (require_token (parse_sp l)) as [[t r]|e1] eqn:E1; cbn [rbind] in E.
  - cbn zeta in E. destruct (negb (str_eqb (b_lower t) (lit "chunked"))); [|discriminate]. destruct (parse_parameters true false None [] r). discriminate.
  - inversion E; subst. eapply req_tok_err, E1.
Qed.
Lemma te_err : forall s e, te_from_str s = Err e -> syntax e.
Proof.
  intros s e E. unfold te_from_str in E. destruct (words_of s true) as [ws|e1] eqn:W; cbn [rbind] in E; [|err_end E].
  destruct (require_transfer_encoding ws) as [[t l]|e1] eqn:E1; cbn [rbind] in E; [|inversion E; subst; right; eapply te_req_err, E1].
  destruct (require_end l) eqn:E4; cbn [rbind] in E; [discriminate|err_end E].
Qed.
Lemma te_list_err : forall s e, te_list_from_str s = Err e -> syntax e.
Proof.
  intros s e E. unfold te_list_from_str in E. destruct (words_of s true) as [ws|e1] eqn:W; cbn [rbind] in E; [|err_end E].
  right. clear W. revert E. generalize (parse_sp ws). generalize (length ws). clear ws.
  induction n as [|n IH]; intros l E; [destruct l; discriminate|]. destruct l as [|w l]; [discriminate|]. cbn [te_list_loop] in E.
  destruct (parse_separator 44 (w :: l)) as [[|] r]; [eapply IH, E|].
  destruct (require_transfer_encoding (w :: l)) as [[t l2]|e1] eqn:E1; cbn [rbind] in E; [|inversion E; subst; eapply te_req_err, E1].
  destruct (te_list_loop n l2) eqn:E2; cbn [rbind] in E; [discriminate|]. inversion E; subst. eapply IH, E2.
Qed.
Lemma mt_err : forall s e, mt_from_str s = Err e -> syntax e \/ e = UnicodeError.
Proof.
  intros s e E. unfold mt_from_str in E. destruct (words_of s false) as [ws|e1] eqn:W; cbn [rbind] in E; [|uni_end E].
  unfold require_media_type in E. destruct (require_token (parse_sp ws)) as [[t l]|e1] eqn:E1; cbn [rbind] in E; [|uni_end E].
  destruct (ascii (b_lower t)) as [t'|e1] eqn:A1; cbn [rbind] in E; [|uni_end E]. destruct (require_separator 47 l) as [l2|e1] eqn:E2; cbn [rbind] in E; [|uni_end E].
  destruct (require_token l2) as [[u l3]|e1] eqn:E3; cbn [rbind] in E; [|uni_end E]. destruct (ascii (b_lower u)) as [u'|e1] eqn:A2; cbn [rbind] in E; [|uni_end E].
  destruct (parse_parameters false false None [] (parse_sp l3)) as [d l4]. cbn [rbind] in E. destruct (require_end (parse_sp l4)) eqn:E4; cbn [rbind] in E; [discriminate|uni_end E].
Qed.
Lemma pt_req_err : forall l e, require_product_token l = Err e -> syntax e \/ e = UnicodeError.
Proof.
  intros l e E. unfold require_product_token in E. destruct (require_token (parse_sp l)) as [[t r]|e1] eqn:E1; cbn [rbind] in E; [|uni_end E].
  destruct (ascii t) as [t'|e1] eqn:A1; cbn [rbind] in E; [|uni_end E]. destruct (parse_separator 47 (parse_sp r)) as [[|] l2]; [|discriminate].
  destruct (require_token l2) as [[u l3]|e1] eqn:E3; cbn [rbind] in E; [|uni_end E]. destruct (ascii u) as [u'|e1] eqn:A2; cbn [rbind] in E; [discriminate|uni_end E].
Qed.
Lemma pt_err : forall s e, pt_from_str s = Err e -> syntax e \/ e = UnicodeError.
Proof.
  intros s e E. unfold pt_from_str in E. destruct (words_of s true) as [ws|e1] eqn:W; cbn [rbind] in E; [|uni_end E].
  destruct (require_product_token (parse_sp ws)) as [[t l]|e1] eqn:E1; cbn [rbind] in E; [|inversion E; subst; eapply pt_req_err, E1].
  destruct (require_end (parse_sp l)) eqn:E4; cbn [rbind] in E; [discriminate|uni_end E].
Qed.
Lemma lt_err : forall s e, lt_from_str s = Err e -> syntax e \/ e = UnicodeError.
Proof.
  intros s e E. unfold lt_from_str in E. destruct (words_of s false) as [ws|e1] eqn:W; cbn [rbind] in E; [|uni_end E].
  unfold require_language_tag in E. destruct (require_token (parse_sp (parse_sp ws))) as [[t l]|e1] eqn:E1; cbn [rbind] in E; [|uni_end E].
  destruct (ascii_all (split_on 45 t)) as [tags|e1] eqn:A1; cbn [rbind] in E; [|uni_end E].
  destruct tags as [|p tags].
  - exfalso. pose proof (split_nonempty 45 t). destruct (split_on 45 t) as [|x y]; [congruence|]. cbn in A1. destruct (ascii x); cbn in A1; [|discriminate]. destruct (ascii_all y); discriminate.
  - cbn [rbind] in E. destruct (require_end (parse_sp (parse_sp l))) eqn:E4; cbn [rbind] in E; [discriminate|uni_end E].
Qed.
Lemma et_err : forall s e, et_from_str s = Err e -> syntax e.
Proof.
  intros s e E. unfold et_from_str in E. destruct (words_of s true) as [ws|e1] eqn:W; cbn [rbind] in E; [|err_end E].
  unfold require_entity_tag in E. destruct (parse_token (parse_sp ws)) as [[w|] l].
  - destruct (negb (str_eqb (b_upper w) (lit "W"))); cbn [rbind] in E; [err_end E|].
    destruct (require_separator 47 (parse_sp l)) as [l2|e1] eqn:E2; cbn [rbind] in E; [|err_end E].
    destruct (parse_quoted_word (parse_sp l2)) as [[q|] l3]; cbn [rbind] in E; [|err_end E].
    destruct (require_end (parse_sp l3)) eqn:E4; cbn [rbind] in E; [discriminate|err_end E].
  - cbn [rbind] in E. destruct (parse_quoted_word (parse_sp l)) as [[q|] l3]; cbn [rbind] in E; [|err_end E].
    destruct (require_end (parse_sp l3)) eqn:E4; cbn [rbind] in E; [discriminate|err_end E].
Qed.
