(** Public suffixes over histories. *)
From Verif Require Import Py UriModel UriRel Dict CookieModel CookieSpec CookieProofs CookieSearch CookieSuffix.

(** ** trees with the same nodes and flags *)
Definition same_attr (m m' : node) : Prop := n_public m' = n_public m /\ n_private m' = n_private m /\ n_depth m' = n_depth m.
Definition same_opt (a b : option node) : Prop := match a, b with Some m, Some m' => same_attr m m' | None, None => True | _, _ => False end.
Definition same_tree (n n' : node) : Prop := forall p, same_opt (find n p) (find n' p).
Lemma same_refl : forall n, same_tree n n.
Proof. intros n p. unfold same_opt. destruct (find n p); [repeat split|exact I]. Qed.
Lemma same_child : forall n x c c', child n x = Some c -> same_tree c c' -> same_tree n (set_child n x c').
Proof.
  intros n x c c' E H p. rewrite find_set_child. destruct p as [|y r]; [destruct n; repeat split|]. destruct (str_eqb y x) eqn:X.
  - apply str_eqb_eq in X. subst y. rewrite find_cons, E. apply H.
  - unfold same_opt. destruct (find n (y :: r)); [repeat split|exact I].
Qed.
Lemma same_cookies : forall n l n', same_tree (set_cookies n l) n' -> same_tree n n'.
Proof. intros n l n' H [|x p]; [specialize (H []); cbn in *; destruct n; exact H|]. specialize (H (x :: p)). rewrite (find_nodes n (set_cookies n l)) in H by (destruct n; reflexivity). exact H. Qed.
Lemma same_search : forall host now u n, same_tree n (fst (search_at now u n host)).
Proof.
  induction host as [|d r IH]; intros now u n; cbn [search_at]; [apply same_refl|]. destruct (child n d) as [c|] eqn:E; [|apply same_refl].
  destruct (match_all now u _ (n_cookies c)) as [m|e]; [|apply same_refl]. set (c1 := set_cookies c _). specialize (IH now u c1). destruct (search_at now u c1 r) as [c2 rest]. cbn [fst] in *.
  eapply same_child; [exact E|]. eapply same_cookies. exact IH.
Qed.
Lemma clean_child : forall f n x, child (clean f n) x = option_map (clean f) (child n x).
Proof. intros f [a b z l c] x. unfold child. cbn [clean n_nodes]. rewrite (map_pair (clean f)). apply dget_map. Qed.
Lemma same_clean : forall f n, same_tree n (clean f n).
Proof.
  intros f n p. revert n. induction p as [|x p IH]; intros n; [destruct n; repeat split|]. rewrite !find_cons, clean_child. destruct (child n x) as [c|]; cbn [option_map]; [apply IH|exact I].
Qed.
Lemma same_inv : forall t R Q p0 n n', same_tree n n' -> Inv t R Q p0 n -> Inv t R Q p0 n'.
Proof.
  intros t R Q p0 n n' S [A B C D]. constructor.
  - intros p m F. specialize (S p). rewrite F in S. unfold same_opt in S. destruct (find n p) as [m0|] eqn:F0; [|exfalso; exact S]. destruct S as (S1 & S2 & S3). eapply node_ok_attr; [exact S1|exact S2|exact S3|]. apply A. exact F0.
  - intros b q H NS. specialize (B b q H NS). specialize (S q). unfold same_opt in S. destruct (find n q); [|congruence]. destruct (find n' q); [discriminate|exfalso; exact S].
  - intros q H. specialize (C q H). specialize (S q). unfold same_opt in S. destruct (find n q); [|congruence]. destruct (find n' q); [discriminate|exfalso; exact S].
  - intros p. specialize (D p). specialize (S (p ++ [STAR])). rewrite D in S. unfold same_opt in S. destruct (find n' (p ++ [STAR])); [exfalso; exact S|reflexivity].
Qed.

(** ** labels *)
Lemma ldh_star : forall x, is_ldh_label x = true -> lower x <> STAR.
Proof.
  intros [|c x] H E; [discriminate|]. unfold STAR in E. cbn in E. injection E as E1 E2. unfold is_ldh_label in H. destruct (63 <? zlen (c :: x)); [discriminate|]. cbn [ldh_loop andb] in H.
  destruct (is_alpha c || is_digit c || false) eqn:A; [|discriminate]. unfold is_alpha, is_upalpha, is_lowalpha, is_digit, between in *. unfold lower1 in E1. 
  repeat match goal with H : context [if ?b then _ else _] |- _ => destruct b eqn:? end; b2p; try lia.
Qed.
Lemma labels_star : forall puny l r, split_labels puny false l = Ok r -> ~ In STAR r.
Proof.
  intros puny l. induction l as [|x l IH]; intros r E; [inversion E; intros []|]. cbn [split_labels andb] in E. destruct (is_ldh_label x) eqn:A.
  - cbn [rbind] in E. destruct (split_labels puny false l) as [b|]; [|discriminate]. cbn [rbind] in E. inversion E; subst. intros [X|X]; [exact (ldh_star x A X)|exact (IH b eq_refl X)].
  - destruct (puny x) as [y|]; [|discriminate]. destruct (is_ldh_label y) eqn:B; [|discriminate]. cbn [rbind] in E. destruct (split_labels puny false l) as [b|]; [|discriminate]. cbn [rbind] in E. inversion E; subst. intros [X|X]; [exact (ldh_star y B X)|exact (IH b eq_refl X)].
Qed.
Lemma labels_nostar : forall puny d l, labels puny d = Some l -> ~ In STAR l.
Proof.
  intros puny d l. unfold labels, split_domain. destruct (split_labels puny false (split_on 46 d)) as [r|] eqn:E; [|discriminate]. intros X. inversion X; subst. intros Y. apply in_rev in Y. exact (labels_star _ _ _ E Y).
Qed.
Lemma target_nostar : forall puny u c d h, target puny u c = Some (d, h) -> ~ In STAR d.
Proof.
  intros puny u c d h. unfold target. destruct (c_http_only c && negb (is_http (u_kind u))); [discriminate|]. unfold host_of. destruct (u_host u) as [x|]; [|discriminate]. destruct (labels puny x) as [h'|] eqn:H; [|discriminate].
  destruct (c_domain c) as [y|].
  - destruct (labels puny y) as [l|] eqn:L; [|discriminate]. destruct (in_domain_dec h' l); [|discriminate]. intros E. inversion E; subst. eapply labels_nostar, L.
  - intros E. inversion E; subst. eapply labels_nostar, H.
Qed.

(** ** the test *)
Lemma test_inv : forall t d R Q p0 n, Inv t R Q p0 n -> d <> [] -> ~ In STAR d ->
  (test_public n d = true -> ~ exception R (p0 ++ d) /\ (listed R t (p0 ++ d) \/ Q (p0 ++ d))) /\
  (~ exception R (p0 ++ d) -> listed R t (p0 ++ d) -> test_public n d = true).
Proof.
  intros t d. induction d as [|x d IH]; intros R Q p0 n I Nd NS; [congruence|]. cbn [test_public]. destruct (child n x) as [c|] eqn:E.
  - destruct (inv_child t R Q p0 n x c I E) as [Ic NX]. destruct d as [|y d].
    + cbn [test_public]. destruct (inv_ok t R Q p0 n I [x] c) as [_ F]; [rewrite find_cons, E; reflexivity|]. destruct F as [F1 F2 F3 F4]; [destruct p0; discriminate|]. split; [intros H; split; auto|auto].
    + rewrite (app_snoc p0). apply IH; [exact Ic|discriminate|]. intros X. apply NS. right. exact X.
  - assert (NX : x <> STAR) by (intros ->; apply NS; left; reflexivity).
    assert (ND : forall q, find n (x :: q) = None) by (intros q; rewrite find_cons, E; reflexivity).
    assert (NE : forall b, ~ In (b, p0 ++ x :: d) R) by (intros b H; apply (inv_ex t R Q p0 n I b (x :: d) H NS); apply ND).
    destruct (inv_ok t R Q p0 n I [] n eq_refl) as [[D1 D2] _]. rewrite app_nil_r in D1, D2.
    rewrite negb_true_iff, Z.ltb_ge. unfold listed. rewrite !app_length. cbn [length].
    assert (L : forall q z, p0 ++ x :: d = q ++ [z] -> In (true, q ++ [STAR]) R -> d = [] /\ q = p0).
    { intros q z H1 H2. destruct d as [|y d].
      - apply app_inj_tail in H1 as [-> _]. auto.
      - exfalso. destruct (@exists_last _ (y :: d) ltac:(discriminate)) as (d' & z' & Ed). rewrite Ed in H1. rewrite app_comm_cons, app_assoc in H1. apply app_inj_tail in H1 as [<- _].
        rewrite <- app_assoc in H2. exact (inv_star t R Q p0 n I (x :: d') H2 (ND d')). }
    split.
    + intros H. split; [apply NE|]. left. destruct (in_dec rule_dec (true, p0 ++ [STAR]) R) as [J|J].
      * specialize (D1 J). destruct d as [|y d]; [right; right; exists p0, x; auto|]. left. cbn [length] in *. lia.
      * specialize (D2 J). left. lia.
    + intros _ [H|[H|(q & z & H1 & H2)]].
      * destruct (in_dec rule_dec (true, p0 ++ [STAR]) R) as [J|J]; [specialize (D1 J)|specialize (D2 J)]; lia.
      * exfalso. exact (NE true H).
      * destruct (L q z H1 H2) as [-> ->]. specialize (D1 H2). cbn [length]. lia.
Qed.
Lemma inv_depth : forall t R Q n, Inv t R Q [] n -> depth_ok n.
Proof.
  intros t R Q n I p m F. destruct (inv_ok t R Q [] n I p m F) as [[D1 D2] _]. cbn [app] in *. destruct (in_dec rule_dec (true, p ++ [STAR]) R) as [J|J]; [rewrite (D1 J)|rewrite (D2 J)]; lia.
Qed.

(** ** histories *)
Definition covers (Q : domain -> Prop) (R : list rule) : Prop := forall p r, p <> [] -> In (true, p ++ r) R -> Q p.
Lemma inv_new : forall Q t, 0 <= t -> Inv t [] Q [] (set_depth new_store t).
Proof.
  intros Q t T. constructor; [|intros b q []|intros q []|apply nostar_nodes; reflexivity].
  intros [|x p] m F; [|discriminate]. cbn in F. inversion F; subst. split; [|intros H; exfalso; apply H; reflexivity]. split; [intros []|]. intros _. cbn. lia.
Qed.
Lemma rule_nonempty : forall puny w d l, split_domain puny d w = Ok l -> rev l <> [].
Proof.
  intros puny w d l E. unfold split_domain in E. apply split_labels_len in E. pose proof (split_nonempty 46 d). intros Y. apply (f_equal (@length str)) in Y. rewrite rev_length in Y. destruct (split_on 46 d); [congruence|cbn in *; lia].
Qed.
Lemma public_suffix_inv : forall t puny d R Q s, Inv t R Q [] s -> Forall rule_ok (rule_of puny true d) -> covers Q (rule_of puny true d) ->
  Inv t (rule_of puny true d ++ R) Q [] (fst (add_public_suffix puny s d)).
Proof.
  intros t puny d R Q s I F C. unfold rule_of, add_public_suffix in *. destruct (split_domain puny d true) as [l|e] eqn:E; [|exact I]. cbn [app fst]. inversion F as [|? ? G H]; subst. unfold rule_ok in G. cbn [fst snd] in G.
  apply (add_public_inv t (rev l) R Q [] s I); [eapply rule_nonempty, E|exact G|]. intros p q Ep Np. cbn [app]. apply (C p q Np). left. rewrite Ep. reflexivity.
Qed.
Lemma private_suffix_inv : forall t puny d R Q s, Inv t R Q [] s -> Forall rule_ok (rule_of puny false d) ->
  Inv t (rule_of puny false d ++ R) Q [] (fst (add_private_suffix puny s d)).
Proof.
  intros t puny d R Q s I F. unfold rule_of, add_private_suffix in *. destruct (split_domain puny d true) as [l|e] eqn:E; [|exact I]. cbn [app fst]. inversion F as [|? ? G H]; subst. unfold rule_ok in G. cbn [fst snd] in G.
  apply (add_private_inv t (rev l) R Q [] s I); [eapply rule_nonempty, E|exact G].
Qed.
(** only the set of the rules matters *)
Lemma inv_perm : forall t R R' Q n, (forall r, In r R <-> In r R') -> Inv t R Q [] n -> Inv t R' Q [] n.
Proof.
  intros t R R' Q n H [A B C D]. constructor.
  - intros p m F. destruct (A p m F) as [[D1 D2] G]. split; [split|].
    + intros X. apply D1, H, X.
    + intros X. apply D2. intros Y. apply X, H, Y.
    + intros Np. destruct (G Np) as [F1 F2 F3 F4]. assert (E : forall p, exception R' p <-> exception R p) by (intros q; unfold exception; symmetry; apply H).
      assert (L : listed R' t ([] ++ p) <-> listed R t ([] ++ p)).
      { unfold listed. split; (intros [X|[X|(q & z & X1 & X2)]]; [left; exact X|right; left; apply H; exact X|right; right; exists q, z; split; [exact X1|apply H; exact X2]]). }
      constructor; rewrite ?E, ?L; assumption.
  - intros b q X. apply (B b q), H, X.
  - intros q X. apply C, H, X.
  - exact D.
Qed.
Lemma lines_inv : forall t puny lines R Q s, Inv t R Q [] s -> Forall rule_ok (rules_of_list puny lines) -> covers Q (rules_of_list puny lines) ->
  Inv t (rules_of_list puny lines ++ R) Q [] (fst (public_lines puny s lines)).
Proof.
  intros t puny lines. induction lines as [|line r IH]; intros R Q s I F C; cbn [public_lines rules_of_list] in *; [exact I|].
  destruct (match line with [] => true | _ => startswith line (lit "//") end); [apply IH; assumption|]. destruct (first_word line) as [w|]; [|exact I].
  assert (K : exists b w', rules_of_list puny [] = [] /\ match w with 33 :: w' => rule_of puny false w' ++ rules_of_list puny r | _ => rule_of puny true w ++ rules_of_list puny r end = rule_of puny b w' ++ rules_of_list puny r /\
    match w with 33 :: w' => fst (add_private_suffix puny s w') | _ => fst (add_public_suffix puny s w) end = (if b then fst (add_public_suffix puny s w') else fst (add_private_suffix puny s w'))).
  { destruct w as [|z w]; [exists true, []; auto|]. destruct (Z.eqb_spec z 33) as [->|N]; [exists false, w; auto|]. exists true, (z :: w). split; [reflexivity|].
    destruct z as [|z|z]; [auto| |auto]. do 6 (destruct z as [z|z|]; try (split; reflexivity)). exfalso; apply N; reflexivity. }
  destruct K as (b & w' & _ & K1 & K2). rewrite K1 in *. rewrite K2. clear K1 K2.
  apply Forall_app in F as [F1 F2].
  assert (C1 : covers Q (rule_of puny b w')) by (intros p q Np X; apply (C p q Np); apply in_or_app; left; exact X).
  assert (C2 : covers Q (rules_of_list puny r)) by (intros p q Np X; apply (C p q Np); apply in_or_app; right; exact X).
  eapply inv_perm; [|apply (IH (rule_of puny b w' ++ R) Q); [|exact F2|exact C2]].
  - intros x. rewrite !in_app_iff. tauto.
  - destruct b; [apply public_suffix_inv|apply private_suffix_inv]; assumption.
Qed.
Lemma step_inv : forall t puny o R Q s, nonlist o -> Inv t R Q [] s -> Forall rule_ok (op_rules puny o) -> covers Q (op_rules puny o) -> Inv t (op_rules puny o ++ R) Q [] (step puny s o).
Proof.
  intros t puny o R Q s N I F C. destruct o as [now u c|now u|now|now|d|d|l z]; cbn [step op_rules app] in *.
  - rewrite set_cookie_target. destruct (target puny u c) as [[dom host]|] eqn:E; [|exact I]. apply at_node_inv; [|exact I|eapply target_nostar, E].
    intros m. unfold store_cookie. destruct (n_public m && negb _); [auto|]. cbn [fst]. destruct m; auto.
  - unfold search. destruct (host_labels puny u) as [host|e]; [|exact I]. pose proof (same_search host now u s) as H. destruct (search_at now u s host) as [s' m]. eapply same_inv; [exact H|exact I].
  - eapply same_inv; [apply same_clean|exact I].
  - eapply same_inv; [apply same_clean|exact I].
  - apply public_suffix_inv; assumption.
  - apply private_suffix_inv; assumption.
  - contradiction.
Qed.
Lemma run_inv : forall t puny ops R Q s, Forall nonlist ops -> Inv t R Q [] s -> Forall rule_ok (flat_map (op_rules puny) ops) -> covers Q (flat_map (op_rules puny) ops) ->
  Inv t (flat_map (op_rules puny) ops ++ R) Q [] (run puny ops s).
Proof.
  intros t puny ops. induction ops as [|o ops IH]; intros R Q s N I F C; [exact I|]. inversion N as [|? ? N1 N2]; subst. cbn [flat_map run fold_left] in *. apply Forall_app in F as [F1 F2].
  assert (C1 : covers Q (op_rules puny o)) by (intros p q Np X; apply (C p q Np); apply in_or_app; left; exact X).
  assert (C2 : covers Q (flat_map (op_rules puny) ops)) by (intros p q Np X; apply (C p q Np); apply in_or_app; right; exact X).
  eapply inv_perm; [|apply (IH (op_rules puny o ++ R) Q); [exact N2| |exact F2|exact C2]].
  - intros x. rewrite !in_app_iff. tauto.
  - apply step_inv; assumption.
Qed.
(** a store that was given a list first *)
Lemma history_inv : forall puny lines t ops, 0 <= t -> Forall nonlist ops ->
  let R := flat_map (op_rules puny) (OList lines t :: ops) in Forall rule_ok R ->
  Inv t R (fun p => exists r, In (true, p ++ r) R) [] (run puny (OList lines t :: ops) new_store).
Proof.
  intros puny lines t ops T N R F. set (Q := fun p => exists r, In (true, p ++ r) R). cbn [run fold_left step].
  assert (I0 : Inv t (rules_of_list puny lines ++ []) Q [] (fst (set_public_list puny new_store lines t))).
  { apply lines_inv; [apply inv_new; exact T|apply Forall_app in F; apply F|]. intros p r Np H. exists r. apply in_or_app. left. exact H. }
  eapply inv_perm; [|apply run_inv; [exact N|exact I0|apply Forall_app in F; apply F|]].
  - intros x. unfold R. cbn [flat_map op_rules]. rewrite !in_app_iff. cbn [In]. tauto.
  - intros p r Np H. exists r. apply in_or_app. right. exact H.
Qed.
