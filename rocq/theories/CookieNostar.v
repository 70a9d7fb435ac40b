(** No wild nodes, in every history whose rules have wild cards only as their first label. *)
From Coq Require Import Permutation Sorted.
From Verif Require Import Py UriModel UriRel Dict CookieModel CookieSpec CookieProofs CookieSearch CookieSuffix CookieHist CookieDepth.

Lemma nostar_intro : forall n, child n STAR = None -> (forall x c, child n x = Some c -> nostar c) -> nostar n.
Proof. intros n H K [|x p]; cbn [app]; rewrite find_cons; [rewrite H; reflexivity|]. destruct (child n x) as [c|] eqn:E; [exact (K x c E p)|reflexivity]. Qed.
Lemma nostar_set_child : forall n x c, x <> STAR -> nostar n -> nostar c -> nostar (set_child n x c).
Proof.
  intros n x c N H K [|y p]; cbn [app]; rewrite find_set_child.
  - destruct (str_eqb STAR x) eqn:E; [apply str_eqb_eq in E; congruence|exact (H [])].
  - destruct (str_eqb y x); [apply K|exact (H (y :: p))].
Qed.
Lemma nostar_same_nodes : forall n n', n_nodes n' = n_nodes n -> nostar n -> nostar n'.
Proof. intros n n' E H [|y p]; cbn [app]; rewrite (find_nodes n n' _ _ E); [exact (H [])|exact (H (y :: p))]. Qed.
Lemma nostar_map_children : forall f n, (forall m, n_nodes (f m) = n_nodes m) -> nostar n -> nostar (map_children f n).
Proof.
  intros f n Hf H. assert (C : forall x, child (map_children f n) x = option_map f (child n x)) by (intros x; destruct n; unfold child, map_children; cbn [n_nodes set_nodes]; apply dget_map).
  apply nostar_intro; [rewrite C, (nostar_here n H); reflexivity|]. intros x c E. rewrite C in E. destruct (child n x) as [k|] eqn:X; [|discriminate]. inversion E; subst. apply (nostar_same_nodes k); [apply Hf|]. eapply nostar_child; eassumption.
Qed.
Lemma nostar_fresh : forall n, nostar (fresh n).
Proof. intros n. apply nostar_nodes, fresh_nodes. Qed.
Lemma nostar_add_public : forall d n, ~ In STAR (removelast d) -> nostar n -> nostar (add_public n d).
Proof.
  induction d as [|x r IH]; intros n NS H; cbn [add_public]; [exact H|].
  assert (NSr : r <> [] -> x <> STAR /\ ~ In STAR (removelast r)) by (intros Nr; destruct r; [congruence|]; split; [intros ->; apply NS; left; reflexivity|intros X; apply NS; right; exact X]).
  destruct (child n x) as [c|] eqn:E.
  - assert (NX : x <> STAR) by (intros ->; rewrite (nostar_here n H) in E; discriminate). pose proof (nostar_child n x c H E) as Hc.
    destruct r as [|y r]; [|apply nostar_set_child; [exact NX|exact H|apply IH; [apply NSr; discriminate|exact Hc]]].
    destruct (str_eqb x STAR) eqn:X; [apply str_eqb_eq in X; congruence|]. apply nostar_set_child; [exact NX|exact H|]. apply (nostar_same_nodes c); [apply pub_nodes|exact Hc].
  - rewrite (expand_fresh n x H). destruct (str_eqb x STAR) eqn:X.
    + apply str_eqb_eq in X. destruct r as [|y r]; [|exfalso; destruct (NSr ltac:(discriminate)) as [Y _]; exact (Y X)]. apply nostar_map_children; [exact pub_nodes|]. apply (nostar_same_nodes n); [destruct (n_depth n <? 1), n; reflexivity|exact H].
    + apply str_eqb_neq in X. apply nostar_set_child; [exact X|exact H|]. apply IH; [destruct r; [intros []|apply NSr; discriminate]|]. apply nostar_nodes. pose proof (fresh_nodes n) as F. destruct (fresh n); exact F.
Qed.
Lemma nostar_add_private : forall d n, ~ In STAR d -> nostar n -> nostar (add_private n d).
Proof.
  induction d as [|x r IH]; intros n NS H; cbn [add_private]; [exact H|].
  assert (NX : x <> STAR) by (intros ->; apply NS; left; reflexivity). assert (NSr : ~ In STAR r) by (intros Y; apply NS; right; exact Y).
  destruct (str_eqb x STAR) eqn:X; [apply str_eqb_eq in X; congruence|]. destruct (child n x) as [c|] eqn:E.
  - pose proof (nostar_child n x c H E) as Hc. destruct r as [|y r]; (apply nostar_set_child; [exact NX|exact H|]); [|apply IH; assumption]. apply (nostar_same_nodes c); [apply priv_nodes|exact Hc].
  - rewrite (expand_fresh n x H). apply nostar_set_child; [exact NX|exact H|]. destruct r; [|apply IH; [exact NSr|apply nostar_fresh]]. apply (nostar_same_nodes (fresh n)); [apply priv_nodes|apply nostar_fresh].
Qed.
Lemma nostar_at_node : forall A (f : node -> node * A) d n, (forall m, n_nodes (fst (f m)) = n_nodes m) -> ~ In STAR d -> nostar n -> nostar (fst (at_node f n d)).
Proof.
  intros A f d n Hf. revert n. induction d as [|x r IH]; intros n NS H; cbn [at_node]; [apply (nostar_same_nodes n); [apply Hf|exact H]|].
  assert (NX : x <> STAR) by (intros ->; apply NS; left; reflexivity). assert (NSr : ~ In STAR r) by (intros Y; apply NS; right; exact Y).
  set (c := match child n x with Some c => c | None => expand_node n x end). assert (Hc : nostar c) by (unfold c; destruct (child n x) as [c1|] eqn:E; [eapply nostar_child; eassumption|rewrite (expand_fresh n x H); apply nostar_fresh]).
  specialize (IH c NSr Hc). destruct (at_node f c r) as [c' a]. cbn [fst] in *. apply nostar_set_child; assumption.
Qed.
Lemma nostar_same : forall n n', same_tree n n' -> nostar n -> nostar n'.
Proof. intros n n' H K p. specialize (H (p ++ [STAR])). rewrite (K p) in H. unfold same_opt in H. destruct (find n' (p ++ [STAR])); [exfalso; exact H|reflexivity]. Qed.
Lemma nostar_pub : forall puny s d, Forall rule_ok (rule_of puny true d) -> nostar s -> nostar (fst (add_public_suffix puny s d)).
Proof. intros puny s d F H. unfold rule_of, add_public_suffix in *. destruct (split_domain puny d true); [|exact H]. inversion F as [|? ? G K]; subst. apply nostar_add_public; assumption. Qed.
Lemma nostar_priv : forall puny s d, Forall rule_ok (rule_of puny false d) -> nostar s -> nostar (fst (add_private_suffix puny s d)).
Proof. intros puny s d F H. unfold rule_of, add_private_suffix in *. destruct (split_domain puny d true); [|exact H]. inversion F as [|? ? G K]; subst. apply nostar_add_private; assumption. Qed.
Lemma nostar_lines : forall puny lines s, Forall rule_ok (rules_of_list puny lines) -> nostar s -> nostar (fst (public_lines puny s lines)).
Proof.
  intros puny lines. induction lines as [|line r IH]; intros s F H; cbn [public_lines rules_of_list] in *; [exact H|]. destruct (match line with [] => true | _ => _ end); [apply IH; assumption|]. destruct (first_word line) as [w|]; [|exact H].
  assert (P1 : forall w, Forall rule_ok (rule_of puny true w ++ rules_of_list puny r) -> nostar (fst (public_lines puny (fst (add_public_suffix puny s w)) r))) by (intros v G; apply Forall_app in G as [G1 G2]; apply IH; [exact G2|apply nostar_pub; assumption]).
  assert (P2 : forall w, Forall rule_ok (rule_of puny false w ++ rules_of_list puny r) -> nostar (fst (public_lines puny (fst (add_private_suffix puny s w)) r))) by (intros v G; apply Forall_app in G as [G1 G2]; apply IH; [exact G2|apply nostar_priv; assumption]).
  destruct w as [|z w]; [apply P1; exact F|]. destruct z as [|z|z]; try (apply P1; exact F). do 6 (destruct z as [z|z|]; try (apply P1; exact F); try (apply P2; exact F)).
Qed.
Lemma nostar_step : forall puny o s, Forall rule_ok (op_rules puny o) -> nostar s -> nostar (step puny s o).
Proof.
  intros puny o s F H. destruct o as [now u c|now u|now|now|d|d|l z]; cbn [step op_rules] in *.
  - rewrite set_cookie_target. destruct (target puny u c) as [[dom host]|] eqn:E; [|exact H]. apply nostar_at_node; [intros m; apply store_nodes|eapply target_nostar, E|exact H].
  - unfold search. destruct (host_labels puny u) as [host|e]; [|exact H]. pose proof (same_search host now u s) as K. destruct (search_at now u s host) as [s' m]. eapply nostar_same; [exact K|exact H].
  - eapply nostar_same; [apply same_clean|exact H].
  - eapply nostar_same; [apply same_clean|exact H].
  - apply nostar_pub; assumption.
  - apply nostar_priv; assumption.
  - apply nostar_lines; [exact F|]. apply (nostar_same_nodes s); [destruct s; reflexivity|exact H].
Qed.
Lemma nostar_run : forall puny ops s, Forall rule_ok (flat_map (op_rules puny) ops) -> nostar s -> nostar (run puny ops s).
Proof. intros puny ops. induction ops as [|o ops IH]; intros s F H; [exact H|]. cbn [flat_map] in F. apply Forall_app in F as [F1 F2]. cbn [run fold_left]. apply IH; [exact F2|apply nostar_step; assumption]. Qed.
Lemma nostar_new : nostar new_store.
Proof. apply nostar_nodes. reflexivity. Qed.

(** ** provenance *)
Lemma jar_run_app : forall puny a b s j, jar_run puny (a ++ b) s j = jar_run puny b (run puny a s) (jar_run puny a s j).
Proof. intros puny a. induction a as [|o a IH]; intros b s j; [reflexivity|]. cbn [app jar_run run fold_left]. apply IH. Qed.
Lemma run_app : forall puny a b s, run puny (a ++ b) s = run puny b (run puny a s).
Proof. intros. apply fold_left_app. Qed.
Lemma jar_nil : forall puny ops s k, jar_run puny ops s empty_jar [] k = None.
Proof.
  intros puny ops s k. induction ops as [|o ops IH] using rev_ind; [reflexivity|]. rewrite jar_run_app. cbn [jar_run]. destruct o as [now u c|now u|now|now|d|d|l z]; cbn [jar_step]; try exact IH.
  - destruct (target puny u c) as [[dom host]|] eqn:E; [|exact IH]. destruct (public_of _ dom && negb _); [exact IH|]. destruct (dom_dec [] dom) as [<-|]; [|exact IH]. exfalso. exact (target_nonempty _ _ _ _ _ E eq_refl).
  - destruct (host_of puny u); [|exact IH]. destruct (in_domain_dec d []); rewrite IH; reflexivity.
  - rewrite IH. reflexivity.
  - rewrite IH. reflexivity.
Qed.
Lemma accept_spec : forall puny now s u c, snd (set_cookie puny now s u c) = Ok tt <->
  exists dom host, target puny u c = Some (dom, host) /\ (dom = host \/ public_of s dom = false).
Proof.
  intros puny now s u c. destruct (target puny u c) as [[dom host]|] eqn:E.
  - rewrite set_cookie_target, E. rewrite at_node_snd. unfold store_cookie. fold (public_of s dom). destruct (target_in _ _ _ _ _ E) as [I _]. rewrite (same_len host dom I). destruct (dom_dec dom host) as [D|D]; cbn [negb].
    + rewrite andb_false_r. split; [eauto|reflexivity].
    + rewrite andb_true_r. destruct (public_of s dom) eqn:P; split; try discriminate; [|eauto|reflexivity]. intros (d1 & h1 & X & Y). inversion X; subst. destruct Y; congruence.
  - split; [|intros (d & h & X & _); discriminate]. unfold set_cookie, target in *. rewrite andb_comm in E. destruct (negb (is_http (u_kind u)) && c_http_only c); [discriminate|].
    pose proof (host_labels_spec puny u) as H. destruct (host_labels puny u) as [host|e]; rewrite H in E; [|discriminate]. destruct (c_domain c) as [d|]; [|discriminate]. unfold labels in E. destruct (split_domain puny d false) as [l|e]; cbn [rbind]; [|discriminate].
    destruct (domain_in_domain (rev l) host) eqn:D; [|discriminate]. destruct (in_domain_dec host (rev l)) as [J|J]; [discriminate|]. exfalso. apply J. apply did_spec. exact D.
Qed.
Lemma provenance : forall puny ops d k c, jar_run puny ops new_store empty_jar d k = Some c ->
  exists pre now0 u0 c0 post host0, ops = pre ++ OSet now0 u0 c0 :: post /\ snd (set_cookie puny now0 (run puny pre new_store) u0 c0) = Ok tt /\
    target puny u0 c0 = Some (d, host0) /\ (d = host0 \/ public_of (run puny pre new_store) d = false) /\ exists z, c = with_created (stored (public_of (run puny pre new_store) d) u0 c0) z.
Proof.
  intros puny ops. induction ops as [|o ops IH] using rev_ind; intros d k c H; [discriminate|]. rewrite jar_run_app in H. cbn [jar_run] in H.
  assert (REC : jar_run puny ops new_store empty_jar d k = Some c -> exists pre now0 u0 c0 post host0, ops ++ [o] = pre ++ OSet now0 u0 c0 :: post /\ snd (set_cookie puny now0 (run puny pre new_store) u0 c0) = Ok tt /\
    target puny u0 c0 = Some (d, host0) /\ (d = host0 \/ public_of (run puny pre new_store) d = false) /\ exists z, c = with_created (stored (public_of (run puny pre new_store) d) u0 c0) z).
  { intros X. destruct (IH _ _ _ X) as (pre & now0 & u0 & c0 & post & host0 & E & R). exists pre, now0, u0, c0, (post ++ [o]), host0. split; [rewrite E, <- app_assoc; reflexivity|exact R]. }
  assert (DROP : forall f, drop f (jar_run puny ops new_store empty_jar d k) = Some c -> jar_run puny ops new_store empty_jar d k = Some c).
  { intros f. unfold drop. destruct (jar_run puny ops new_store empty_jar d k) as [c1|]; [|discriminate]. destruct (f c1); [discriminate|auto]. }
  destruct o as [now u c1|now u|now|now|x|x|l z]; cbn [jar_step] in H; try (apply REC; exact H); try (apply REC; eapply DROP; exact H).
  - destruct (target puny u c1) as [[dom host]|] eqn:T; [|apply REC; exact H]. destruct (public_of (run puny ops new_store) dom && negb (if dom_dec dom host then true else false)) eqn:P; [apply REC; exact H|].
    destruct (dom_dec d dom) as [->|]; [|apply REC; exact H]. destruct (key_dec k (key_of (stored (public_of (run puny ops new_store) dom) u c1))) as [->|]; [|apply REC; exact H].
    destruct (over (stored (public_of (run puny ops new_store) dom) u c1) now); [discriminate|]. injection H as <-.
    assert (Q : dom = host \/ public_of (run puny ops new_store) dom = false).
    { destruct (dom_dec dom host); [left; assumption|]. right. rewrite andb_true_r in P. exact P. }
    exists ops, now, u, c1, [], host. split; [reflexivity|]. split; [apply accept_spec; eauto|]. split; [exact T|]. split; [exact Q|]. eauto.
  - destruct (host_of puny u) as [h|]; [|apply REC; exact H]. destruct (in_domain_dec h d); [|apply REC; exact H]. apply REC. eapply DROP. exact H.
Qed.
(** search, over histories *)
Lemma search_hist : forall puny ops now u host, Forall op_ok ops -> host_of puny u = Some host ->
  exists e l s', search puny now (run puny ops new_store) u = (s', Ok l) /\ Permutation l (map snd e) /\ NoDup (map fst e) /\ StronglySorted in_order l /\
  forall d k c, In ((d, k), c) e <-> jar_run puny ops new_store empty_jar d k = Some c /\ sent now u host d c.
Proof.
  intros puny ops now u host F H. destruct (run_jar puny ops new_store empty_jar okt_new F) as [T J]; [intros [|x d] k N; [congruence|reflexivity]|].
  unfold search. pose proof (host_labels_spec puny u) as L. destruct (host_labels puny u) as [h|e]; rewrite H in L; [|discriminate]. injection L as <-.
  destruct (search_at_spec host now u (run puny ops new_store) T) as (e & s' & E & ND & IN & _). exists e, (sort_cookies (map snd e)), s'. rewrite E. split; [reflexivity|]. split; [apply sort_perm|]. split; [exact ND|]. split; [apply sort_sorted|].
  intros d k c. rewrite IN. fold (jar_of (run puny ops new_store) d k). split.
  - intros (N & I & G & X & M). fold (jar_of (run puny ops new_store) d k) in G. rewrite J in G by exact N. split; [exact G|].
    assert (P : exists x r, c_path c = Some (x :: r)).
    { destruct (T d) as [_ O]. rewrite Forall_forall in O. rewrite <- J in G by exact N. unfold jar_of in G. apply dget_in in G; [|apply key_eqb_eq]. apply O in G. apply G. }
    destruct (matches_spec u (if dom_dec d host then true else false) c P) as (b & Eb & Hb). rewrite M in Eb. injection Eb as <-. destruct Hb as [Hb _]. specialize (Hb eq_refl). destruct Hb as (H1 & H2 & H3 & H4). split; [exact X|]. split; [exact I|]. split; [|tauto].
    intros Y. specialize (H1 Y). destruct (dom_dec d host); [assumption|discriminate].
  - intros (G & X & I & HO & PM & S1 & S2). assert (N : d <> []) by (intros ->; rewrite jar_nil in G; discriminate). split; [exact N|]. split; [exact I|]. rewrite <- J in G by exact N. split; [exact G|]. split; [exact X|].
    assert (P : exists x r, c_path c = Some (x :: r)).
    { destruct (T d) as [_ O]. rewrite Forall_forall in O. unfold jar_of in G. apply dget_in in G; [|apply key_eqb_eq]. apply O in G. apply G. }
    destruct (matches_spec u (if dom_dec d host then true else false) c P) as (b & Eb & Hb). rewrite Eb. f_equal. apply Hb. split; [|tauto]. intros Y. specialize (HO Y). destruct (dom_dec d host); [reflexivity|contradiction].
Qed.
