(** Property C134: Accept headers that are written are read as what they were. *)
From Coq Require Import Lia String Permutation Sorted.
From Verif Require Import AnModel Py Num UriModel UriRel HttpModel HttpSpec HttpParamModel HttpParamSpec HttpProps HttpParamProofs HttpParamMain HttpParamParsed HttpLex AnSpec AnProofs AcModel AcSpec AcProofs.
Open Scope Z_scope.

(** ** q-values *)
Definition q_texts : list (Z * str) :=
  (1000, lit "1") :: (0, lit "0") :: map (fun a => (100 * a, lit "0." ++ [digit_of a])) [1; 2; 3; 4; 5; 6; 7; 8; 9] ++
  flat_map (fun a => map (fun b => (100 * a + 10 * b, lit "0." ++ [digit_of a; digit_of b])) [1; 2; 3; 4; 5; 6; 7; 8; 9]) [0; 1; 2; 3; 4; 5; 6; 7; 8; 9] ++
  flat_map (fun a => flat_map (fun b => map (fun c => (100 * a + 10 * b + c, lit "0." ++ [digit_of a; digit_of b; digit_of c])) [1; 2; 3; 4; 5; 6; 7; 8; 9]) [0; 1; 2; 3; 4; 5; 6; 7; 8; 9]) [0; 1; 2; 3; 4; 5; 6; 7; 8; 9].
Lemma q_texts_fmt : forallb (fun p => str_eqb (fmt_q (fst p)) (snd p)) q_texts = true.
Proof. vm_compute. reflexivity. Qed.
Lemma digits_in : forall a, 0 <= a < 10 -> In a [0; 1; 2; 3; 4; 5; 6; 7; 8; 9].
Proof. intros a H. cbn. lia. Qed.
Lemma pos_digits_in : forall a, 0 < a < 10 -> In a [1; 2; 3; 4; 5; 6; 7; 8; 9].
Proof. intros a H. cbn. lia. Qed.
Lemma qtext_in : forall q w, qtext q w -> In (q, w) q_texts.
Proof.
  intros q w H. unfold q_texts. destruct H as [| |a Ha|a b Ha Hb|a b c Ha Hb Hc]; [left; reflexivity|right; left; reflexivity|right; right..].
  - apply in_or_app. left. apply in_map_iff. exists a. split; [reflexivity|apply pos_digits_in; exact Ha].
  - apply in_or_app. right. apply in_or_app. left. apply in_flat_map. exists a. split; [apply digits_in; exact Ha|]. apply in_map_iff. exists b. split; [reflexivity|apply pos_digits_in; exact Hb].
  - apply in_or_app. right. apply in_or_app. right. apply in_flat_map. exists a. split; [apply digits_in; exact Ha|]. apply in_flat_map. exists b. split; [apply digits_in; exact Hb|].
    apply in_map_iff. exists c. split; [reflexivity|apply pos_digits_in; exact Hc].
Qed.
Lemma fmt_q_text : forall q w, qtext q w -> fmt_q q = w.
Proof. intros q w H. apply qtext_in in H. pose proof q_texts_fmt as A. rewrite forallb_forall in A. apply str_eqb_eq. exact (A _ H). Qed.
Lemma qtext_all : forall q, quality_ok q -> exists w, qtext q w.
Proof.
  intros q [H1 H2]. destruct (Z.eq_dec q 1000) as [->|N1]; [eexists; constructor|]. destruct (Z.eq_dec q 0) as [->|N0]; [eexists; constructor|].
  set (a := q / 100). set (b := q / 10 mod 10). set (c := q mod 10).
  assert (E : q = 100 * a + 10 * b + c) by (unfold a, b, c; Z.div_mod_to_equations; lia).
  assert (Ha : 0 <= a < 10) by (unfold a; Z.div_mod_to_equations; lia). assert (Hb : 0 <= b < 10) by (unfold b; apply Z.mod_pos_bound; lia). assert (Hc : 0 <= c < 10) by (unfold c; apply Z.mod_pos_bound; lia).
  clearbody a b c. subst q. destruct (Z.eq_dec c 0) as [->|Nc]; [|eexists; apply q_thousandths; lia].
  destruct (Z.eq_dec b 0) as [->|Nb]; eexists; [rewrite Z.add_0_r, Z.add_0_r; apply q_tenths; lia|rewrite Z.add_0_r; apply q_hundredths; lia].
Qed.
(** a token is written as it is if its quality is 1, else with its quality in as few digits as possible *)
Theorem token_text : forall t, token_ok t ->
  exists w, qtext (tq t) w /\ token_to_bytes t = Ok (if tq t =? 1000 then AnModel.token t else AnModel.token t ++ lit ";q=" ++ w).
Proof.
  intros t ([T A] & H). destruct (qtext_all (tq t) H) as [w Hw]. exists w. split; [exact Hw|]. unfold token_to_bytes. rewrite (fmt_q_text _ _ Hw).
  destruct (fmt_q_ok (tq t) H) as [[_ Aq] _]. rewrite (fmt_q_text _ _ Hw) in Aq. destruct (tq t =? 1000); [rewrite app_nil_r; apply ascii_ok; exact A|].
  apply ascii_ok. apply Forall_app. split; [exact A|]. apply Forall_app. split; [|exact Aq]. apply Forall_forall. intros c Hc. cbn in Hc. lia.
Qed.
Theorem token_reads : forall t, token_ok t -> exists b, token_to_bytes t = Ok b /\ token_from_str b = Ok t.
Proof. exact token_round. Qed.
(** the items of a header, with commas *)
Theorem tokens_read : forall order l, Forall token_ok l -> exists bs, Forall2 (fun t b => token_to_bytes t = Ok b) l bs /\ tokens_from_str order (comma_sep bs) = Ok (order l).
Proof.
  intros order l G. destruct (tokens_round order l G) as (bs & E & R). exists bs. split; [|exact R]. clear R G. revert bs E.
  induction l as [|t l IH]; intros bs E; cbn [all_ok] in E; [inversion E; constructor|]. destruct (token_to_bytes t) as [b|] eqn:Eb; [|discriminate]. cbn [rbind] in E.
  destruct (all_ok token_to_bytes l) as [r|] eqn:Er; [|discriminate]. cbn [rbind] in E. inversion E; subst. constructor; [exact Eb|]. apply IH. reflexivity.
Qed.
(** but such a list cannot be written *)
Theorem tokens_write_refuted : forall t l, tokens_to_bytes (t :: l) = Err TypeError.
Proof. reflexivity. Qed.

(** ** Accept *)
Lemma norm_same : forall a, item_ok a -> same_item a (norm_item a).
Proof.
  intros a (_ & _ & [N _] & _ & _ & [N2 _]). split; [split; [reflexivity|split; [reflexivity|]]|split; [reflexivity|]]; cbn; apply sort_same; assumption.
Qed.
Theorem item_reads : forall a, item_ok a -> exists b a', item_to_bytes a = Ok b /\ item_from_str b = Ok a' /\ same_item a a'.
Proof. intros a G. destruct (item_round a G) as (b & E & R). exists b, (norm_item a). split; [exact E|]. split; [exact R|]. apply norm_same. exact G. Qed.

(** sorting what is sorted *)
Lemma put_end : forall {A} (cmp : A -> A -> comparison), good cmp -> forall x l, Forall (fun y => cmp y x <> Gt) l -> put cmp x l = l ++ [x].
Proof.
  intros A cmp (Ho & _) x l F. induction F as [|y l H F IH]; [reflexivity|]. cbn [put]. rewrite (Ho y x). destruct (cmp y x) eqn:E; cbn [CompOpp app]; try congruence; rewrite IH; reflexivity.
Qed.
Lemma sort_id : forall {A} (cmp : A -> A -> comparison), good cmp -> forall l, StronglySorted (fun x y => cmp x y <> Gt) l -> sort cmp l = l.
Proof.
  intros A cmp G l H. unfold sort.
  assert (X : forall l acc, StronglySorted (fun x y => cmp x y <> Gt) l -> Forall (fun y => Forall (fun x => cmp y x <> Gt) l) acc -> fold_left (fun acc x => put cmp x acc) l acc = acc ++ l).
  { clear l H. induction l as [|x l IH]; intros acc H F; cbn [fold_left]; [rewrite app_nil_r; reflexivity|]. inversion H as [|? ? H1 H2]; subst. rewrite put_end; [|exact G|].
    - rewrite IH; [rewrite <- app_assoc; reflexivity|exact H1|]. apply Forall_app. split; [|repeat constructor; exact H2]. eapply Forall_impl; [|exact F]. intros y Hy. inversion Hy; assumption.
    - eapply Forall_impl; [|exact F]. intros y Hy. inversion Hy; assumption. }
  rewrite X; [reflexivity|exact H|constructor].
Qed.
Lemma sort_map : forall {A} (cmp : A -> A -> comparison) (f : A -> A) (P : A -> Prop), (forall x y, P x -> P y -> cmp (f x) (f y) = cmp x y) ->
  forall l, Forall P l -> sort cmp (map f l) = map f (sort cmp l).
Proof.
  intros A cmp f P Hf. assert (Pu : forall x l, P x -> Forall P l -> put cmp (f x) (map f l) = map f (put cmp x l)).
  { intros x l Hx F. induction F as [|y l Hy F IH]; [reflexivity|]. cbn [put map]. rewrite Hf by assumption. destruct (cmp x y); cbn [map]; [rewrite IH; reflexivity|reflexivity|rewrite IH; reflexivity]. }
  assert (Pp : forall x l, P x -> Forall P l -> Forall P (put cmp x l)) by (intros x l Hx F; eapply Permutation_Forall; [apply put_perm|constructor; assumption]).
  assert (X : forall l acc, Forall P l -> Forall P acc -> fold_left (fun acc x => put cmp x acc) (map f l) (map f acc) = map f (fold_left (fun acc x => put cmp x acc) l acc)).
  { induction l as [|x l IH]; intros acc F Fa; cbn [fold_left map]; [reflexivity|]. inversion F; subst. rewrite Pu by assumption. apply IH; [assumption|]. apply Pp; assumption. }
  intros l F. apply (X l []); [exact F|constructor].
Qed.
Definition lower_range (a : aitem) : Prop := b_lower (mt_type (arange a)) = mt_type (arange a) /\ b_lower (mt_subtype (arange a)) = mt_subtype (arange a).
Lemma norm_cmp : forall a b, (item_ok a /\ lower_range a) -> (item_ok b /\ lower_range b) -> cmp_item (norm_item a) (norm_item b) = cmp_item a b.
Proof.
  intros a b [(_ & _ & [Na _] & _) [A1 A2]] [(_ & _ & [Nb _] & _) [B1 B2]]. unfold cmp_item, cmp_range, norm_item, norm_range. cbn [arange aq mt_type mt_subtype mt_params].
  rewrite A1, A2, B1, B2, !hp_sort by assumption. reflexivity.
Qed.
Lemma accept_twice : forall l, accept_list (accept_list l) = accept_list l.
Proof. intros l. apply (sort_id cmp_item good_item). apply (sort_spec cmp_item good_item). Qed.
Lemma all_ok_each : forall {A} (f : A -> res str) l bs, all_ok f l = Ok bs -> Forall2 (fun x b => f x = Ok b) l bs.
Proof.
  intros A f. induction l as [|x l IH]; intros bs E; cbn [all_ok] in E; [inversion E; constructor|]. destruct (f x) as [b|] eqn:Eb; [|discriminate]. cbn [rbind] in E.
  destruct (all_ok f l) as [r|]; [|discriminate]. cbn [rbind] in E. inversion E; subst. constructor; [exact Eb|]. apply IH. reflexivity.
Qed.
(** A list that was made is read as it was: the same items in the same order, and it chooses the same types *)
Theorem accept_reads : forall items, Forall item_ok items -> Forall lower_range items -> items <> [] ->
  exists b l, accept_to_str (accept_list items) = Ok b /\ accept_from_str b = Ok l /\ Forall2 same_item (accept_list items) l /\
    forall mtypes, select_type l mtypes = select_type (accept_list items) mtypes.
Proof.
  intros items G Lw N. assert (P : Permutation items (accept_list items)) by apply (sort_spec cmp_item good_item).
  assert (G2 : Forall item_ok (accept_list items)) by (eapply Permutation_Forall; [exact P|exact G]).
  assert (L2 : Forall lower_range (accept_list items)) by (eapply Permutation_Forall; [exact P|exact Lw]).
  destruct (accept_round (accept_list items) G2) as (b & E & R). { intros X. apply N. rewrite X in P. apply Permutation_sym, Permutation_nil in P. exact P. }
  assert (S2 : accept_list (map norm_item (accept_list items)) = map norm_item (accept_list items)).
  { unfold accept_list at 1. rewrite (sort_map cmp_item norm_item (fun a => item_ok a /\ lower_range a)); [fold (accept_list (accept_list items)); rewrite accept_twice; reflexivity|exact norm_cmp|].
    apply Forall_forall. intros a Ha. rewrite Forall_forall in G2, L2. split; [apply G2|apply L2]; exact Ha. }
  rewrite S2 in R. exists b, (map norm_item (accept_list items)). split; [exact E|]. split; [exact R|]. split.
  - clear - G2. induction G2; constructor; [apply norm_same; assumption|assumption].
  - intros mtypes. unfold select_type. f_equal. apply fold_ext. intros best m. f_equal. clear - G2 L2. induction G2 as [|a l Ga G2 IH]; [reflexivity|]. inversion L2 as [|? ? [La Lb] L3]; subst.
    cbn [map first_q]. destruct Ga as (_ & _ & [Na _] & _). replace (match_media_type (arange (norm_item a)) m) with (match_media_type (arange a) m); [rewrite (IH L3); reflexivity|].
    unfold match_media_type, norm_item, norm_range. cbn [arange mt_type mt_subtype mt_params]. rewrite La, Lb, hp_sort by assumption. reflexivity.
Qed.
(** in whatever case and order the items are, they are written one by one with commas, and read and sorted *)
Theorem accept_reads_each : forall l, Forall item_ok l -> l <> [] ->
  exists bs l', Forall2 (fun a b => item_to_bytes a = Ok b) l bs /\ accept_to_str l = Ok (comma_sep bs) /\ accept_from_str (comma_sep bs) = Ok (accept_list l') /\ Forall2 same_item l l'.
Proof.
  intros l G N. destruct (accept_round l G N) as (b & E & R). unfold accept_to_str in *. destruct (all_ok item_to_bytes l) as [bs|] eqn:Eb; [|discriminate]. cbn [rbind] in *. inversion E; subst b.
  exists bs, (map norm_item l). split; [apply all_ok_each; exact Eb|]. split; [reflexivity|]. split; [exact R|]. clear - G. induction G; constructor; [apply norm_same; assumption|assumption].
Qed.

(** ** whatever is read *)
Lemma digits_nonneg : forall s, forallb HttpModel.is_digit s = true -> 0 <= decimal s.
Proof.
  intros s H. apply decimal_nonneg. apply Forall_forall. intros c Hc. rewrite forallb_forall in H. specialize (H c Hc). unfold HttpModel.is_digit in H. unfold dec_digit. apply andb_true_iff in H as [A B]. apply Z.leb_le in A. apply Z.leb_le in B. split; assumption.
Qed.
Lemma digits_forall : forall s, is_digits s = true -> forallb HttpModel.is_digit s = true.
Proof. intros [|c s] H; [discriminate|exact H]. Qed.
Lemma to_q_nonneg : forall w q, to_q w = Ok (Some q) -> 0 <= q.
Proof.
  intros w q H. unfold to_q in H. destruct (split_on 46 w) as [|a [|b [|c r]]]; [discriminate| | |discriminate].
  - destruct (is_digits a) eqn:Da; [|discriminate]. assert (X : q = 1000 * decimal a) by congruence. pose proof (digits_nonneg a (digits_forall a Da)). lia.
  - destruct (is_digits a) eqn:Da; [|discriminate]. destruct (is_digits b) eqn:Db; [|discriminate]. cbn [andb] in H. destruct (_ <=? _)%nat; [|discriminate]. assert (X : q = 1000 * decimal a + decimal (b ++ repeat 48 (3 - List.length b))) by congruence. pose proof (digits_nonneg a (digits_forall a Da)).
    assert (0 <= decimal (b ++ repeat 48 (3 - List.length b))); [|lia]. apply digits_nonneg. rewrite forallb_app. rewrite (digits_forall b Db). cbn [andb]. apply forallb_forall. intros x Hx. apply repeat_spec in Hx. subst. reflexivity.
Qed.
Lemma require_q_range : forall ws q r, require_q ws = Ok (q, r) -> quality_ok q.
Proof.
  intros ws q r H. unfold require_q in H. destruct (require_token _) as [[name l1]|]; [|discriminate]. cbn [rbind] in H. destruct (ascii name); [|discriminate]. cbn [rbind] in H. destruct (negb _); [discriminate|].
  destruct (require_separator _ _) as [l2|]; [|discriminate]. cbn [rbind] in H. unfold parse_qvalue in H. destruct (parse_token _) as [[w|] l3]; [|discriminate]. destruct (to_q w) as [[v|]|] eqn:E; [|discriminate..]. cbn [rbind] in H. inversion H; subst.
  apply to_q_nonneg in E. unfold quality_ok. destruct (1000 <? v) eqn:L; [lia|]. apply Z.ltb_ge in L. lia.
Qed.
Lemma loop_forall : forall {A} (req : list word -> res (A * list word)) (P : A -> Prop), (forall ws a r, req ws = Ok (a, r) -> P a) -> forall f ws l r, items_loop req f ws = Ok (l, r) -> Forall P l.
Proof.
  intros A req P H. induction f as [|f IH]; intros ws l r E; [destruct ws; inversion E; constructor|]. destruct ws as [|w ws]; [inversion E; constructor|]. cbn [items_loop] in E.
  destruct (req (w :: ws)) as [[a ws1]|e] eqn:R; [|destruct e; inversion E; constructor]. destruct (parse_separator 44 (parse_sp ws1)) as [[|] ws2]; [|inversion E; subst; repeat constructor; eapply H; exact R].
  destruct (items_loop req f ws2) as [[l2 ws3]|] eqn:E2; [|discriminate]. cbn [rbind] in E. inversion E; subst. constructor; [eapply H; exact R|eapply IH; exact E2].
Qed.
Lemma loop_err : forall {A} (req : list word -> res (A * list word)) f ws e, items_loop req f ws = Err e -> e = Unmodelled.
Proof.
  intros A req. induction f as [|f IH]; intros ws e E; [destruct ws; discriminate|]. destruct ws as [|w ws]; [discriminate|]. cbn [items_loop] in E.
  destruct (req (w :: ws)) as [[a ws1]|x] eqn:R; [|destruct x; inversion E; reflexivity]. destruct (parse_separator 44 (parse_sp ws1)) as [[|] ws2]; [|discriminate].
  destruct (items_loop req f ws2) as [[l2 ws3]|] eqn:E2; [discriminate|]. cbn [rbind] in E. inversion E; subst. eapply IH. exact E2.
Qed.
Lemma item_quality : forall ws a r, require_accept_item ws = Ok (a, r) -> quality_ok (aq a).
Proof.
  intros ws a r H. unfold require_accept_item in H. destruct (require_media_range _) as [[m l1]|]; [|discriminate]. cbn [rbind] in H. destruct (parse_separator _ _) as [[|] l2].
  - destruct (require_q l2) as [[q l3]|] eqn:E; [|discriminate]. cbn [rbind] in H. destruct (parse_parameters _ _ _ _ _) as [x l4]. inversion H; subst. cbn. eapply require_q_range. exact E.
  - inversion H; subst. unfold quality_ok. cbn. lia.
Qed.
Lemma token_quality_read : forall ws t r, require_accept_token ws = Ok (t, r) -> quality_ok (tq t).
Proof.
  intros ws t r H. unfold require_accept_token in H. destruct (require_token _) as [[n l1]|]; [|discriminate]. cbn [rbind] in H. destruct (ascii n); [|discriminate]. cbn [rbind] in H. destruct (parse_separator _ _) as [[|] l2].
  - destruct (require_q l2) as [[q l3]|] eqn:E; [|discriminate]. cbn [rbind] in H. inversion H; subst. cbn. eapply require_q_range. exact E.
  - inversion H; subst. unfold quality_ok. cbn. lia.
Qed.
(** Any header: there is an item at least, qualities are from 0 to 1, the items are in order of precedence; else it is a syntax error *)
Theorem accept_any : forall s, match accept_from_str s with
  | Ok l => l <> [] /\ Forall (fun a => quality_ok (aq a)) l /\ StronglySorted (fun a b => cmp_item a b <> Gt) l
  | Err e => e = Unmodelled \/ e = ParserError \/ e = BadSyntax
  end.
Proof.
  intros s. unfold accept_from_str. destruct (words_of s true) as [ws|e] eqn:W; cbn [rbind].
  - destruct (items_loop _ _ _) as [[l r]|e] eqn:E; cbn [rbind]; [|left; eapply loop_err; exact E].
    destruct l as [|a l]; [right; right; reflexivity|]. destruct (require_end r) as [|e] eqn:R; cbn [rbind].
    + apply (loop_forall _ _ item_quality) in E. destruct (sort_spec cmp_item good_item (a :: l)) as [S1 S2]. fold (accept_list (a :: l)) in *. split; [|split; [eapply Permutation_Forall; [exact S2|exact E]|exact S1]].
      intros X. rewrite X in S2. apply Permutation_sym, Permutation_nil in S2. discriminate.
    + right. right. eapply end_err. exact R.
  - right. assert (X : te_list_from_str s = Err e) by (unfold te_list_from_str; rewrite W; reflexivity). apply te_list_err in X. exact X.
Qed.
Theorem tokens_any : forall order s, (forall l, Permutation l (order l)) -> match tokens_from_str order s with
  | Ok l => Forall (fun t => quality_ok (tq t)) l
  | Err e => e = Unmodelled \/ e = ParserError \/ e = BadSyntax
  end.
Proof.
  intros order s HO. unfold tokens_from_str. destruct (words_of s true) as [ws|e] eqn:W; cbn [rbind].
  - destruct (items_loop _ _ _) as [[l r]|e] eqn:E; cbn [rbind]; [|left; eapply loop_err; exact E]. destruct (require_end r) as [|e] eqn:R; cbn [rbind].
    + apply (loop_forall _ _ token_quality_read) in E. eapply Permutation_Forall; [apply HO|exact E].
    + right. right. eapply end_err. exact R.
  - right. assert (X : te_list_from_str s = Err e) by (unfold te_list_from_str; rewrite W; reflexivity). apply te_list_err in X. exact X.
Qed.

(** ** What is not so *)
Lemma lit_token_ascii : forall s, s <> [] -> existsb special s = false -> forallb (fun c => (0 <=? c) && (c <? 128)) s = true -> ascii_token s.
Proof. intros s H1 H2 H3. split; [apply lit_token; assumption|]. apply Forall_forall. intros c Hc. rewrite forallb_forall in H3. specialize (H3 c Hc). apply andb_true_iff in H3 as [A B]. apply Z.leb_le in A. apply Z.ltb_lt in B. lia. Qed.
Lemma one_good : forall k n v, n <> [] -> existsb special n = false -> forallb (fun c => (0 <=? c) && (c <? 128)) n = true -> k = u_lower n -> v <> [] -> forallb (fun c => (0 <=? c) && (c <? 256)) v = true -> good_params [(k, (n, v))].
Proof.
  intros k n v H1 H2 H3 H4 H5 H6. split; [constructor; [intros []|constructor]|]. constructor; [|constructor]. split; [apply lit_token_ascii; assumption|]. split; [exact H4|]. split; [|exact H5].
  apply Forall_forall. intros c Hc. rewrite forallb_forall in H6. specialize (H6 c Hc). apply andb_true_iff in H6 as [A B]. apply Z.leb_le in A. apply Z.ltb_lt in B. lia.
Qed.
(** a parameter of the range that is called "q" is read as the quality *)
Theorem q_parameter_refuted : let a := AI (mkmt (lit "text") (lit "html") [(lit "q", (lit "q", lit "0.5"))]) 1000 [] in
  good_params (mt_params (arange a)) /\ item_to_bytes a = Ok (lit "text/html; q=0.5") /\ item_from_str (lit "text/html; q=0.5") = Ok (AI (mkmt (lit "text") (lit "html") []) 500 []).
Proof.
  cbv zeta. split; [|split; vm_compute; reflexivity]. apply one_good; try discriminate; reflexivity.
Qed.

(** ** Examples *)
Definition ex_items := [AI (mkmt (lit "text") star []) 300 []; AI (mkmt (lit "text") (lit "html") [(lit "level", (lit "Level", lit "1 "))]) 1000 []; AI (mkmt star star []) 50 [(lit "x", (lit "X", lit "y"))]].
Example ex_items_ok : Forall item_ok ex_items /\ Forall lower_range ex_items.
Proof.
  assert (N : good_params []) by (split; constructor).
  split; [|repeat constructor]. repeat apply Forall_cons; [..|apply Forall_nil]; (split; [apply lit_token_ascii; [discriminate|reflexivity|reflexivity]|]; split; [apply lit_token_ascii; [discriminate|reflexivity|reflexivity]|];
    split; [first [exact N|apply one_good; try discriminate; reflexivity]|]; split; [intros X; cbn in X; intuition discriminate|]; split; [split; cbn; lia|first [exact N|apply one_good; try discriminate; reflexivity]]).
Qed.
Example ex_written : accept_to_str (accept_list ex_items) = Ok (lit "text/html; Level=""1 "", text/*; q=0.3, */*; q=0.05; X=y").
Proof. vm_compute. reflexivity. Qed.
Example ex_read : accept_from_str (lit " */*;q=0.05;X=y , Text/*;Q=.3") = Err BadSyntax /\ accept_from_str (lit " */* ; q=0.05;X=y , Text/*;Q = 7.3,") = Ok [AI (mkmt (lit "text") star []) 1000 []; AI (mkmt star star []) 50 [(lit "x", (lit "X", lit "y"))]].
Proof. split; vm_compute; reflexivity. Qed.
Example ex_tokens : tokens_from_str token_list (lit "*;q=0.25, gzip, identity; q=0") = Ok [AT (lit "gzip") 1000; AT (lit "identity") 0; AT star 250] /\ token_to_bytes (AT (lit "gzip") 250) = Ok (lit "gzip;q=0.25").
Proof. split; vm_compute; reflexivity. Qed.
Print Assumptions token_text.
Print Assumptions token_reads.
Print Assumptions tokens_read.
Print Assumptions tokens_write_refuted.
Print Assumptions item_reads.
Print Assumptions accept_reads.
Print Assumptions accept_reads_each.
Print Assumptions accept_any.
Print Assumptions tokens_any.
Print Assumptions q_parameter_refuted.
