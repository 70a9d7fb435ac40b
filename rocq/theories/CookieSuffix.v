(** Public suffixes: the tree of the store against the rules. *)
From Verif Require Import Py UriModel UriRel Dict CookieModel CookieSpec CookieProofs CookieSearch.

(** ** test_public_domain and get_registered_domain *)
Definition depth_ok (n : node) : Prop := forall p m, find n p = Some m -> 0 <= n_depth m.
Lemma depth_child : forall n x c, depth_ok n -> child n x = Some c -> depth_ok c.
Proof. intros n x c H E p m F. apply (H (x :: p)). rewrite find_cons, E. exact F. Qed.
Lemma firstn_cons_inv : forall A k (x : A) r, (0 < k)%nat -> firstn k (x :: r) = x :: firstn (k - 1) r.
Proof. intros A [|k] x r H; [lia|]. cbn. rewrite Nat.sub_0_r. reflexivity. Qed.
(** the shortest suffix that is not public *)
Lemma registered_spec : forall d n, depth_ok n -> d <> [] ->
  match registered n d with
  | Some m => (exists r, d = m ++ r) /\ m <> [] /\ test_public n m = false /\ forall p q, p <> [] -> q <> [] -> m = p ++ q -> test_public n p = true
  | None => forall p q, p <> [] -> d = p ++ q -> test_public n p = true
  end.
Proof.
  induction d as [|x d IH]; intros n D N; [congruence|]. cbn [registered]. destruct (child n x) as [c|] eqn:E.
  - pose proof (depth_child n x c D E) as Dc. destruct (n_public c) eqn:P; cbn [negb].
    + assert (T0 : test_public n [x] = true) by (cbn; rewrite E; exact P). destruct d as [|y d].
      * intros p q Np X. destruct p as [|z p]; [congruence|]. cbn in X. inversion X; subst. assert (Y : p = []) by (destruct p; [reflexivity|discriminate]). subst p. exact T0.
      * specialize (IH c Dc ltac:(discriminate)). destruct (registered c (y :: d)) as [m|].
        -- destruct IH as ([r Er] & Nm & T & H). split; [exists r; cbn; rewrite Er; reflexivity|]. split; [discriminate|]. split; [cbn [test_public]; rewrite E; exact T|]. intros p q Np Nq X. destruct p as [|z p]; [congruence|]. cbn in X. inversion X; subst z m.
           destruct p as [|z p]; [exact T0|]. cbn [test_public]. rewrite E. apply (H (z :: p) q); [discriminate|exact Nq|reflexivity].
        -- intros p q Np X. destruct p as [|z p]; [congruence|]. cbn in X. inversion X as [[X1 X2]]; subst z. destruct p as [|z p]; [exact T0|]. cbn [test_public]. rewrite E. apply (IH (z :: p) q); [discriminate|exact X2].
    + split; [exists d; reflexivity|]. split; [discriminate|]. split; [cbn; rewrite E; exact P|]. intros p q Np Nq X. destruct p as [|z p]; [congruence|]. cbn in X. inversion X. destruct p; [|discriminate]. destruct q; [congruence|discriminate].
  - pose proof (D [] n eq_refl) as D0.
    assert (T : forall r, test_public n (x :: r) = negb (n_depth n <? Z.of_nat (length (x :: r)))) by (intros r; cbn [test_public]; rewrite E; reflexivity).
    destruct (n_depth n <? Z.of_nat (length (x :: d))) eqn:L; b2p.
    + split; [exists (skipn (Z.to_nat (n_depth n + 1)) (x :: d)); symmetry; apply firstn_skipn|]. assert (K : (0 < Z.to_nat (n_depth n + 1))%nat) by lia. rewrite firstn_cons_inv by exact K. split; [discriminate|]. split.
      * rewrite T. rewrite negb_false_iff, Z.ltb_lt. cbn [length] in *. rewrite firstn_length. lia.
      * intros p q Np Nq X. destruct p as [|z p]; [congruence|]. cbn in X. inversion X as [[X1 X2]]; subst z. rewrite T. rewrite negb_true_iff, Z.ltb_ge. apply (f_equal (@length str)) in X2. rewrite firstn_length, app_length in X2. cbn [length] in *. destruct q; [congruence|]. cbn [length] in X2. lia.
    + intros p q Np X. destruct p as [|z p]; [congruence|]. cbn in X. inversion X; subst z d. rewrite T. rewrite negb_true_iff, Z.ltb_ge. cbn [length] in *. rewrite app_length in L. lia.
Qed.

(** ** no wild nodes *)
Definition nostar (n : node) : Prop := forall p, find n (p ++ [STAR]) = None.
Lemma nostar_child : forall n x c, nostar n -> child n x = Some c -> nostar c.
Proof. intros n x c H E p. specialize (H (x :: p)). cbn in H. rewrite E in H. exact H. Qed.
Lemma nostar_here : forall n, nostar n -> child n STAR = None.
Proof. intros n H. specialize (H []). cbn [app find] in H. destruct (child n STAR); [discriminate|reflexivity]. Qed.
Definition fresh (n : node) : node := if negb (n_depth n =? 0) then Node true false (n_depth n - 1) [] [] else Node false false 0 [] [].
Lemma expand_fresh : forall n x, nostar n -> expand_node n x = fresh n.
Proof. intros n x H. unfold expand_node, fresh. rewrite (nostar_here n H). destruct (negb (str_eqb x STAR)); reflexivity. Qed.
Lemma fresh_test : forall d n, n_nodes n = [] -> 0 <= n_depth n -> d <> [] -> test_public n d = negb (n_depth n <? Z.of_nat (length d)).
Proof. intros [|x d] [a b z l c] H D N; [congruence|]. cbn in H. subst. reflexivity. Qed.
Lemma fresh_nodes : forall n, n_nodes (fresh n) = [].
Proof. intros n. unfold fresh. destruct (negb (n_depth n =? 0)); reflexivity. Qed.
Lemma child_fresh : forall n x, child (fresh n) x = None.
Proof. intros n x. unfold child. rewrite fresh_nodes. reflexivity. Qed.
Lemma nostar_nodes : forall n, n_nodes n = [] -> nostar n.
Proof. intros n H [|x p]; cbn [app find]; unfold child; rewrite H; reflexivity. Qed.
Lemma public_fresh : forall d n, n_nodes n = [] -> 0 <= n_depth n -> d <> [] -> public_of n d = negb (n_depth n <? Z.of_nat (length d)).
Proof.
  unfold public_of. induction d as [|x d IH]; intros n H D N; [congruence|]. cbn [node_at]. assert (E : child n x = None) by (unfold child; rewrite H; reflexivity). rewrite E, (expand_fresh n x (nostar_nodes n H)).
  unfold fresh. destruct (Z.eqb_spec (n_depth n) 0) as [Z0|Z0]; cbn [negb].
  - destruct d as [|y d]; [cbn [node_at n_public length]; symmetry; apply negb_false_iff, Z.ltb_lt; lia|]. rewrite IH by (try reflexivity; try discriminate; cbn; lia). cbn [n_depth length] in *. f_equal.
    destruct (Z.ltb_spec 0 (Z.of_nat (S (length d)))), (Z.ltb_spec (n_depth n) (Z.of_nat (S (S (length d))))); try reflexivity; lia.
  - destruct d as [|y d]; [cbn [node_at n_public length]; symmetry; apply negb_true_iff, Z.ltb_ge; lia|]. rewrite IH by (try reflexivity; try discriminate; cbn; lia). cbn [n_depth length] in *. f_equal.
    destruct (Z.ltb_spec (n_depth n - 1) (Z.of_nat (S (length d)))), (Z.ltb_spec (n_depth n) (Z.of_nat (S (S (length d))))); try reflexivity; lia.
Qed.
Lemma public_test : forall d n, depth_ok n -> nostar n -> public_of n d = test_public n d.
Proof.
  induction d as [|x d IH]; intros n D NS; [reflexivity|]. cbn [test_public]. unfold public_of. cbn [node_at]. destruct (child n x) as [c|] eqn:E; [apply IH; [eapply depth_child|eapply nostar_child]; eassumption|].
  rewrite (expand_fresh n x NS). fold (public_of (fresh n) d). pose proof (D [] n eq_refl) as D0. destruct d as [|y d].
  - unfold public_of, fresh. cbn [node_at length]. destruct (Z.eqb_spec (n_depth n) 0) as [Z0|Z0]; cbn [negb n_public]; symmetry; [apply negb_false_iff, Z.ltb_lt|apply negb_true_iff, Z.ltb_ge]; lia.
  - unfold fresh. destruct (Z.eqb_spec (n_depth n) 0) as [Z0|Z0]; cbn [negb]; (rewrite public_fresh by (try reflexivity; try discriminate; cbn; lia)); cbn [n_depth length]; f_equal.
    + destruct (Z.ltb_spec 0 (Z.of_nat (S (length d)))), (Z.ltb_spec (n_depth n) (Z.of_nat (S (S (length d))))); try reflexivity; lia.
    + destruct (Z.ltb_spec (n_depth n - 1) (Z.of_nat (S (length d)))), (Z.ltb_spec (n_depth n) (Z.of_nat (S (S (length d))))); try reflexivity; lia.
Qed.

(** ** the tree against the rules *)
Section Inv.
  Variable t : Z.
  Record flags (R : list rule) (Q : domain -> Prop) (p : domain) (m : node) : Prop := mkflags {
    fl_priv : n_private m = true <-> exception R p;
    fl_a : n_public m = true -> ~ exception R p;
    fl_b : ~ exception R p -> listed R t p -> n_public m = true;
    fl_c : n_public m = true -> listed R t p \/ Q p }.
  Definition depthp (R : list rule) (p : domain) (m : node) : Prop :=
    (In (true, p ++ [STAR]) R -> n_depth m = Z.max (t - Z.of_nat (length p)) 1) /\
    (~ In (true, p ++ [STAR]) R -> n_depth m = Z.max (t - Z.of_nat (length p)) 0).
  Definition node_ok (R : list rule) (Q : domain -> Prop) (p : domain) (m : node) : Prop := depthp R p m /\ (p <> [] -> flags R Q p m).
  Record Inv (R : list rule) (Q : domain -> Prop) (p0 : domain) (n : node) : Prop := mkInv {
    inv_ok : forall p m, find n p = Some m -> node_ok R Q (p0 ++ p) m;
    inv_ex : forall b q, In (b, p0 ++ q) R -> ~ In STAR q -> find n q <> None;
    inv_star : forall q, In (true, p0 ++ q ++ [STAR]) R -> find n q <> None;
    inv_nostar : nostar n }.
  Definition rule_dec : forall a b : rule, {a = b} + {a <> b}.
  Proof. decide equality; [apply dom_dec|apply bool_dec]. Defined.

  Lemma app_snoc : forall (p0 : domain) x r, p0 ++ x :: r = (p0 ++ [x]) ++ r.
  Proof. intros. rewrite <- app_assoc. reflexivity. Qed.
  Lemma app_self : forall (p r : domain), r <> [] -> p ++ r <> p.
  Proof. intros p r N E. apply N. rewrite <- (app_nil_r p) in E at 2. apply app_inv_head in E. exact E. Qed.
  (** a rule that says nothing about p *)
  Lemma transfer : forall R Q b P p m, p <> P -> P <> p ++ [STAR] -> (forall q x, p = q ++ [x] -> P <> q ++ [STAR]) ->
    node_ok R Q p m -> node_ok ((b, P) :: R) Q p m.
  Proof.
    intros R Q b P p m N1 N2 N3 [[D1 D2] F]. split; [split|].
    - intros [X|X]; [inversion X; congruence|auto].
    - intros X. apply D2. intros Y. apply X. right. exact Y.
    - intros Np. destruct (F Np) as [F1 F2 F3 F4].
      assert (E : exception ((b, P) :: R) p <-> exception R p) by (split; [intros [X|X]; [inversion X; congruence|exact X]|intros X; right; exact X]).
      assert (L : listed ((b, P) :: R) t p <-> listed R t p).
      { unfold listed. split.
        - intros [H|[[H|H]|(q & x & H1 & [H|H])]]; [auto|inversion H; congruence|auto|inversion H; exfalso; eapply N3; eauto|right; right; eauto].
        - intros [H|[H|(q & x & H1 & H)]]; [auto|right; left; right; exact H|]. right; right. exists q, x. split; [exact H1|right; exact H]. }
      constructor; rewrite ?E, ?L; assumption.
  Qed.
  Lemma inv_child : forall R Q p0 n x c, Inv R Q p0 n -> child n x = Some c -> Inv R Q (p0 ++ [x]) c /\ x <> STAR.
  Proof.
    intros R Q p0 n x c [A B C D] E. assert (NX : x <> STAR) by (intros ->; rewrite (nostar_here n D) in E; discriminate). split; [|exact NX]. constructor.
    - intros p m F. rewrite <- app_snoc. apply A. rewrite find_cons, E. exact F.
    - intros b q H NS. rewrite <- app_snoc in H. specialize (B b (x :: q) H). rewrite find_cons, E in B. apply B. intros [X|X]; [congruence|auto].
    - intros q H. rewrite <- app_snoc in H. specialize (C (x :: q) H). rewrite find_cons, E in C. exact C.
    - eapply nostar_child; eassumption.
  Qed.
  Lemma find_set_child : forall n x c p, find (set_child n x c) p = match p with [] => Some (set_child n x c) | y :: r => if str_eqb y x then find c r else find n p end.
  Proof.
    intros n x c [|y r]; [reflexivity|]. rewrite find_cons. destruct (str_eqb y x) eqn:E.
    - apply str_eqb_eq in E. subst. rewrite child_set_eq. reflexivity.
    - apply str_eqb_neq in E. rewrite child_set_ne by exact E. rewrite find_cons. reflexivity.
  Qed.
  Lemma node_ok_attr : forall R Q p m m', n_public m' = n_public m -> n_private m' = n_private m -> n_depth m' = n_depth m -> node_ok R Q p m -> node_ok R Q p m'.
  Proof.
    intros R Q p m m' H1 H2 H3 [D F]. split; [unfold depthp in *; rewrite H3; exact D|]. intros Np. destruct (F Np) as [F1 F2 F3 F4]. constructor; rewrite ?H1, ?H2; assumption.
  Qed.
  Lemma set_child_inv : forall R R' Q p0 n x c, Inv R Q p0 n -> Inv R' Q (p0 ++ [x]) c -> x <> STAR ->
    (forall p m, (forall z, p <> x :: z) -> node_ok R Q (p0 ++ p) m -> node_ok R' Q (p0 ++ p) m) ->
    (forall b q, In (b, p0 ++ q) R' -> In (b, p0 ++ q) R \/ exists z, q = x :: z) ->
    Inv R' Q p0 (set_child n x c).
  Proof.
    intros R R' Q p0 n x c [A B C D] [A' B' C' D'] NX TR EX. constructor.
    - intros p m F. rewrite find_set_child in F. destruct p as [|y r].
      + inversion F; subst. apply (node_ok_attr R' Q _ n); [destruct n; reflexivity|destruct n; reflexivity|destruct n; reflexivity|]. apply TR; [discriminate|]. apply A. reflexivity.
      + destruct (str_eqb y x) eqn:E.
        * apply str_eqb_eq in E. subst. rewrite app_snoc. apply A'. exact F.
        * apply str_eqb_neq in E. apply TR; [intros z Z; congruence|]. apply A. exact F.
    - intros b q H NS. rewrite find_set_child. destruct q as [|y r]; [discriminate|]. destruct (str_eqb y x) eqn:E.
      + apply str_eqb_eq in E. subst. rewrite app_snoc in H. apply (B' b); [exact H|]. intros X. apply NS. right. exact X.
      + apply str_eqb_neq in E. apply EX in H as [H|[z H]]; [|congruence]. apply (B b); assumption.
    - intros q H. rewrite find_set_child. destruct q as [|y r]; [discriminate|]. destruct (str_eqb y x) eqn:E.
      + apply str_eqb_eq in E. subst. cbn [app] in H. rewrite app_snoc in H. apply C'. exact H.
      + apply str_eqb_neq in E. apply EX in H as [H|[z H]]; [|cbn in H; congruence]. apply C. exact H.
    - intros [|y r].
      + cbn [app]. rewrite find_set_child. destruct (str_eqb STAR x) eqn:E; [apply str_eqb_eq in E; congruence|]. exact (D []).
      + cbn [app]. rewrite find_set_child. destruct (str_eqb y x) eqn:E; [apply D'|]. exact (D (y :: r)).
  Qed.
  (** a rule for p0 ++ x :: r *)
  Lemma set_child_rule : forall R Q p0 n x c b r, Inv R Q p0 n -> Inv ((b, p0 ++ x :: r) :: R) Q (p0 ++ [x]) c -> x <> STAR -> Inv ((b, p0 ++ x :: r) :: R) Q p0 (set_child n x c).
  Proof.
    intros R Q p0 n x c b r I I' NX. eapply set_child_inv; [exact I|exact I'|exact NX| |].
    - intros p m Hp H. apply transfer; [| | |exact H].
      + intros E. apply app_inv_head in E. exact (Hp _ E).
      + rewrite <- app_assoc. intros E. apply app_inv_head in E. destruct p as [|y p]; cbn [app] in E; injection E as E1 E2; [exact (NX E1)|]. rewrite <- E1 in Hp. exact (Hp _ eq_refl).
      + intros q z Ep E. destruct p as [|y p].
        * rewrite app_nil_r in Ep. subst p0. rewrite <- app_assoc in E. apply app_inv_head in E. cbn in E. inversion E as [[E1 E2]]. 
        * destruct (@exists_last _ (y :: p) ltac:(discriminate)) as (p' & y' & Ep'). rewrite Ep' in Ep. rewrite app_assoc in Ep. apply app_inj_tail in Ep as [Eq _]. subst q. rewrite <- app_assoc in E. apply app_inv_head in E.
          destruct p' as [|w p']; cbn [app] in E; injection E as E1 E2; [exact (NX E1)|]. rewrite Ep', <- E1 in Hp. exact (Hp _ eq_refl).
    - intros b' q [H|H]; [|left; exact H]. right. inversion H as [[H1 H2]]. apply app_inv_head in H2. exists r. auto.
  Qed.

  Lemma transfer_flags : forall R Q b P p m, p <> P -> (forall q x, p = q ++ [x] -> P <> q ++ [STAR]) -> flags R Q p m -> flags ((b, P) :: R) Q p m.
  Proof.
    intros R Q b P p m N1 N3 [F1 F2 F3 F4].
    assert (E : exception ((b, P) :: R) p <-> exception R p) by (split; [intros [X|X]; [inversion X; congruence|exact X]|intros X; right; exact X]).
    assert (L : listed ((b, P) :: R) t p <-> listed R t p).
    { unfold listed. split.
      - intros [H|[[H|H]|(q & x & H1 & [H|H])]]; [auto|inversion H; congruence|auto|inversion H; exfalso; eapply N3; eauto|right; right; eauto].
      - intros [H|[H|(q & x & H1 & H)]]; [auto|right; left; right; exact H|]. right; right. exists q, x. split; [exact H1|right; exact H]. }
    constructor; rewrite ?E, ?L; assumption.
  Qed.
  Lemma len_ne : forall (a b : domain), length a <> length b -> a <> b.
  Proof. intros a b N E. apply N. rewrite E. reflexivity. Qed.
  Lemma fresh_inv : forall R Q p0 n x, Inv R Q p0 n -> child n x = None -> x <> STAR -> Inv R Q (p0 ++ [x]) (fresh n).
  Proof.
    intros R Q p0 n x [A B C D] E NX.
    assert (NR : forall b q, ~ In STAR q -> ~ In (b, (p0 ++ [x]) ++ q) R).
    { intros b q NS H. rewrite <- app_snoc in H. apply (B b (x :: q)); [exact H|intros [X|X]; [congruence|auto]|]. rewrite find_cons, E. reflexivity. }
    assert (NSt : forall q, ~ In (true, (p0 ++ [x]) ++ q ++ [STAR]) R).
    { intros q H. rewrite <- app_snoc in H. apply (C (x :: q)); [exact H|]. rewrite find_cons, E. reflexivity. }
    destruct (A [] n eq_refl) as [D0 _]. rewrite app_nil_r in D0. destruct D0 as [D1 D2].
    assert (LEN : Z.of_nat (length (p0 ++ [x])) = Z.of_nat (length p0) + 1) by (rewrite app_length; cbn [length]; lia).
    constructor.
    - intros [|y p] m F; [|rewrite find_cons, child_fresh in F; discriminate]. cbn in F. inversion F; subst m. rewrite app_nil_r. split.
      + split; [intros H; exfalso; exact (NSt [] H)|]. intros _. rewrite LEN. unfold fresh. destruct (Z.eqb_spec (n_depth n) 0) as [Z0|Z0]; cbn [negb n_depth]; destruct (in_dec rule_dec (true, p0 ++ [STAR]) R) as [I|I]; [apply D1 in I|apply D2 in I|apply D1 in I|apply D2 in I]; lia.
      + intros _. assert (NE : ~ exception R (p0 ++ [x])) by (intros H; apply (NR false []); [intros []|rewrite app_nil_r; exact H]).
        assert (NT : ~ In (true, p0 ++ [x]) R) by (intros H; apply (NR true []); [intros []|rewrite app_nil_r; exact H]). constructor.
        * split; [|intros H; contradiction]. unfold fresh. destruct (negb (n_depth n =? 0)); discriminate.
        * intros _. exact NE.
        * intros _ [H|[H|(q & z & H1 & H)]]; [| contradiction |].
          -- unfold fresh. destruct (Z.eqb_spec (n_depth n) 0) as [Z0|Z0]; [|reflexivity]. exfalso. destruct (in_dec rule_dec (true, p0 ++ [STAR]) R) as [I|I]; [apply D1 in I|apply D2 in I]; lia.
          -- apply app_inj_tail in H1 as [-> _]. apply D1 in H. unfold fresh. destruct (Z.eqb_spec (n_depth n) 0) as [Z0|Z0]; [lia|reflexivity].
        * unfold fresh. destruct (Z.eqb_spec (n_depth n) 0) as [Z0|Z0]; cbn [negb n_public]; [discriminate|]. intros _. left. destruct (in_dec rule_dec (true, p0 ++ [STAR]) R) as [I|I]; [right; right; exists p0, x; auto|]. apply D2 in I. left. lia.
    - intros b q H NS. exfalso. exact (NR b q NS H).
    - intros q H. exfalso. exact (NSt q H).
    - apply nostar_nodes. apply fresh_nodes.
  Qed.
  (** another node with the same children *)
  Lemma find_nodes : forall n n' x p, n_nodes n' = n_nodes n -> find n' (x :: p) = find n (x :: p).
  Proof. intros n n' x p H. rewrite !find_cons. unfold child. rewrite H. reflexivity. Qed.
  Lemma root_inv : forall R Q p0 n n', Inv R Q p0 n -> n_nodes n' = n_nodes n -> node_ok R Q p0 n' -> Inv R Q p0 n'.
  Proof.
    intros R Q p0 n n' [A B C D] H K. constructor.
    - intros [|y p] m F; [cbn in F; inversion F; subst; rewrite app_nil_r; exact K|]. rewrite (find_nodes n n' y p H) in F. apply A. exact F.
    - intros b [|y q] H1 H2; [discriminate|]. rewrite (find_nodes n n' y q H). eapply B; eassumption.
    - intros [|y q] H1; [discriminate|]. rewrite (find_nodes n n' y q H). apply C. exact H1.
    - intros [|y q]; cbn [app]; rewrite (find_nodes n n' _ _ H); [exact (D [])|exact (D (y :: q))].
  Qed.
  Lemma force_inv : forall R Q p0 n, Inv R Q p0 n -> p0 <> [] -> Q p0 -> ~ exception R p0 -> Inv R Q p0 (set_public n true).
  Proof.
    intros R Q p0 n I Np HQ NE. eapply root_inv; [exact I|destruct n; reflexivity|]. destruct I as [A B C D]. destruct (A [] n eq_refl) as [D0 F]. rewrite app_nil_r in *. destruct (F Np) as [F1 F2 F3 F4]. split.
    - unfold depthp in *. destruct n; exact D0.
    - intros _. constructor; [destruct n; exact F1|auto|destruct n; reflexivity|auto].
  Qed.
  Lemma make_public_inv : forall R Q p0 n, Inv R Q p0 n -> p0 <> [] -> Q p0 -> Inv R Q p0 (make_public n) /\ (~ exception R p0 -> n_public (make_public n) = true).
  Proof.
    intros R Q p0 n I Np HQ. pose proof I as [A _ _ _]. destruct (A [] n eq_refl) as [_ F]. rewrite app_nil_r in F. destruct (F Np) as [F1 _ _ _]. unfold make_public. destruct (n_private n) eqn:P.
    - split; [exact I|]. intros H. exfalso. apply H. apply F1. reflexivity.
    - split; [apply force_inv; auto; intros X; apply F1 in X; discriminate|]. intros _. destruct n; reflexivity.
  Qed.
  Lemma base_public : forall R Q p0 n, Inv R Q p0 n -> p0 <> [] -> (~ exception R p0 -> n_public n = true) -> Inv ((true, p0) :: R) Q p0 n.
  Proof.
    intros R Q p0 n [A B C D] Np HP. constructor.
    - intros [|y p] m F.
      + cbn in F. inversion F; subst m. destruct (A [] n eq_refl) as [[D1 D2] G]. rewrite app_nil_r in *. split; [split|].
        * intros [X|X]; [|auto]. inversion X as [X1]. exfalso. symmetry in X1. revert X1. apply app_self. discriminate.
        * intros X. apply D2. intros Y. apply X. right. exact Y.
        * intros _. destruct (G Np) as [F1 F2 F3 F4]. assert (E : exception ((true, p0) :: R) p0 <-> exception R p0) by (split; [intros [X|X]; [inversion X|exact X]|intros X; right; exact X]).
          constructor; rewrite ?E; [exact F1|exact F2|intros H _; auto|]. intros _. left. right. left. left. reflexivity.
      + apply transfer; [| | |apply A; exact F].
        * apply app_self. discriminate.
        * apply len_ne. rewrite !app_length. cbn [length]. lia.
        * intros q x H. apply len_ne. apply (f_equal (@length str)) in H. rewrite !app_length in H. rewrite app_length. cbn [length] in *. lia.
    - intros b q [H|H] NS; [|eapply B; eassumption]. inversion H as [[H1 H2]]. destruct q as [|y q]; [discriminate|]. exfalso. symmetry in H2. revert H2. apply app_self. discriminate.
    - intros q [H|H]; [|apply C; exact H]. inversion H as [H2]. exfalso. apply (f_equal (@length str)) in H2. rewrite !app_length in H2. cbn [length] in H2. lia.
    - exact D.
  Qed.
  Lemma base_private : forall R Q p0 n, Inv R Q p0 n -> p0 <> [] -> Inv ((false, p0) :: R) Q p0 (make_private n).
  Proof.
    intros R Q p0 n [A B C D] Np.
    assert (NN : n_nodes (make_private n) = n_nodes n) by apply priv_nodes. constructor.
    - intros [|y p] m F.
      + cbn in F. inversion F; subst m. destruct (A [] n eq_refl) as [[D1 D2] G]. rewrite app_nil_r in *. split; [split|].
        * intros [X|X]; [inversion X|]. destruct n; auto.
        * intros X. assert (Y : ~ In (true, p0 ++ [STAR]) R) by (intros Y; apply X; right; exact Y). destruct n; auto.
        * intros _. constructor.
          -- split; [intros _; left; reflexivity|]. intros _. destruct n; reflexivity.
          -- destruct n; discriminate.
          -- intros H. exfalso. apply H. left. reflexivity.
          -- destruct n; discriminate.
      + rewrite (find_nodes n _ y p NN) in F. apply transfer; [| | |apply A; exact F].
        * apply app_self. discriminate.
        * apply len_ne. rewrite !app_length. cbn [length]. lia.
        * intros q x H. apply len_ne. apply (f_equal (@length str)) in H. rewrite !app_length in H. rewrite app_length. cbn [length] in *. lia.
    - intros b [|y q] [H|H] NS; try discriminate.
      + exfalso. inversion H as [[H1 H2]]. symmetry in H2. revert H2. apply app_self. discriminate.
      + rewrite (find_nodes n _ y q NN). eapply B; eassumption.
    - intros [|y q] [H|H]; try discriminate. rewrite (find_nodes n _ y q NN). apply C. exact H.
    - intros [|y q]; cbn [app]; rewrite (find_nodes n _ _ _ NN); [exact (D [])|exact (D (y :: q))].
  Qed.
  Lemma find_map_children : forall f n x p, (forall m, n_nodes (f m) = n_nodes m) -> find (map_children f n) (x :: p) =
    match p with [] => option_map f (child n x) | y :: r => find n (x :: p) end.
  Proof.
    intros f n x p H. assert (C : child (map_children f n) x = option_map f (child n x)) by (destruct n; unfold child, map_children; cbn [n_nodes set_nodes]; apply dget_map).
    rewrite find_cons, C. destruct p as [|y r]; [destruct (child n x); reflexivity|]. rewrite (find_cons n). destruct (child n x) as [c|]; [apply find_nodes; apply H|reflexivity].
  Qed.
  Lemma base_star : forall R Q p0 n, Inv R Q p0 n -> Inv ((true, p0 ++ [STAR]) :: R) Q p0 (map_children make_public (if n_depth n <? 1 then set_depth n 1 else n)).
  Proof.
    intros R Q p0 n [A B C D]. set (n1 := if n_depth n <? 1 then set_depth n 1 else n). assert (NN : n_nodes n1 = n_nodes n) by (unfold n1; destruct (n_depth n <? 1), n; reflexivity).
    assert (FM : forall x p, find (map_children make_public n1) (x :: p) = match p with [] => option_map make_public (child n x) | _ :: _ => find n (x :: p) end).
    { intros x p. rewrite (find_map_children make_public n1 x p pub_nodes). destruct p; [unfold child; rewrite NN; reflexivity|]. apply find_nodes. exact NN. }
    constructor.
    - intros [|x [|y p]] m F.
      + cbn in F. inversion F; subst m. clear F. destruct (A [] n eq_refl) as [[D1 D2] G]. rewrite app_nil_r in *. split.
        * assert (E : n_depth (map_children make_public n1) = Z.max (n_depth n) 1) by (unfold n1; destruct (Z.ltb_spec (n_depth n) 1); destruct n; cbn in *; lia). split.
          -- intros _. rewrite E. destruct (in_dec rule_dec (true, p0 ++ [STAR]) R) as [I|I]; [apply D1 in I|apply D2 in I]; lia.
          -- intros H. exfalso. apply H. left. reflexivity.
        * intros Np. specialize (G Np). assert (F : flags R Q p0 (map_children make_public n1)).
          { destruct G as [F1 F2 F3 F4]. constructor; unfold n1; destruct (n_depth n <? 1), n; assumption. }
          apply transfer_flags; [| |exact F].
          -- intros X. symmetry in X. revert X. apply app_self. discriminate.
          -- intros q x H. apply len_ne. apply (f_equal (@length str)) in H. rewrite !app_length in *. cbn [length] in *. lia.
      + rewrite FM in F. destruct (child n x) as [c|] eqn:E; [|discriminate]. cbn in F. inversion F; subst m. clear F.
        destruct (A [x] c) as [D0 G]; [rewrite find_cons, E; reflexivity|]. assert (Np : p0 ++ [x] <> []) by (destruct p0; discriminate). destruct (G Np) as [F1 F2 F3 F4]. split.
        * assert (DE : n_depth (make_public c) = n_depth c) by (unfold make_public; destruct c; cbn; destruct private; reflexivity). unfold depthp. rewrite DE. destruct D0 as [D1 D2]. split.
          -- intros [X|X]; [|auto]. exfalso. inversion X as [X1]. apply (f_equal (@length str)) in X1. rewrite !app_length in X1. cbn [length] in X1. lia.
          -- intros X. apply D2. intros Y. apply X. right. exact Y.
        * intros _. assert (EE : exception ((true, p0 ++ [STAR]) :: R) (p0 ++ [x]) <-> exception R (p0 ++ [x])) by (split; [intros [X|X]; [inversion X|exact X]|intros X; right; exact X]).
          assert (PP : n_private (make_public c) = n_private c) by (unfold make_public; destruct c; cbn; destruct private; reflexivity).
          constructor; rewrite ?EE, ?PP.
          -- exact F1.
          -- unfold make_public. destruct (n_private c) eqn:P; [exact F2|]. intros _ X. apply F1 in X. discriminate.
          -- intros NE _. unfold make_public. destruct (n_private c) eqn:P; [exfalso; apply NE; apply F1; reflexivity|destruct c; reflexivity].
          -- intros _. left. right. right. exists p0, x. split; [reflexivity|left; reflexivity].
      + rewrite FM in F. apply transfer; [| | |apply A; exact F].
        * apply len_ne. rewrite !app_length. cbn [length]. lia.
        * apply len_ne. rewrite !app_length. cbn [length]. lia.
        * intros q z H. apply len_ne. apply (f_equal (@length str)) in H. rewrite !app_length in *. cbn [length] in *. lia.
    - assert (FN : forall q, find n q <> None -> find (map_children make_public n1) q <> None).
      { intros [|x [|y q]] H; [discriminate| |rewrite FM; exact H]. rewrite FM. rewrite find_cons in H. destruct (child n x); [discriminate|contradiction]. }
      intros b q [H|H] NS; [|apply FN; eapply B; eassumption]. exfalso. inversion H as [[H1 H2]]. apply app_inv_head in H2. apply NS. rewrite <- H2. left. reflexivity.
    - intros q [H|H].
      + inversion H as [H2]. apply app_inv_head in H2. destruct q as [|y q]; [discriminate|]. exfalso. apply (f_equal (@length str)) in H2. rewrite app_length in H2. cbn in H2. lia.
      + apply C in H. destruct q as [|x [|y q]]; [discriminate| |rewrite FM; exact H]. rewrite FM. rewrite find_cons in H. destruct (child n x); [discriminate|contradiction].
    - intros [|x p]; cbn [app]; rewrite FM; [rewrite (nostar_here n D); reflexivity|]. destruct (p ++ [STAR]) as [|y r] eqn:E; [destruct p; discriminate|]. rewrite <- E. exact (D (x :: p)).
  Qed.

  Lemma add_public_inv : forall d R Q p0 n, Inv R Q p0 n -> d <> [] -> ~ In STAR (removelast d) -> (forall p q, d = p ++ q -> p <> [] -> Q (p0 ++ p)) ->
    Inv ((true, p0 ++ d) :: R) Q p0 (add_public n d).
  Proof.
    induction d as [|x r IH]; intros R Q p0 n I Nd NS HQ; [congruence|]. cbn [add_public].
    assert (Np : p0 ++ [x] <> []) by (destruct p0; discriminate). assert (Qx : Q (p0 ++ [x])) by (apply (HQ [x] r); [reflexivity|discriminate]).
    assert (NSr : r <> [] -> ~ In STAR (removelast r)) by (intros Nr H; apply NS; destruct r; [congruence|]; right; exact H).
    assert (HQr : forall p q, r = p ++ q -> p <> [] -> Q ((p0 ++ [x]) ++ p)) by (intros p q E Hp; rewrite <- app_snoc; apply (HQ (x :: p) q); [rewrite E; reflexivity|discriminate]).
    destruct (child n x) as [c|] eqn:E.
    - destruct (inv_child R Q p0 n x c I E) as [Ic NX]. destruct r as [|y r].
      + destruct (str_eqb x STAR) eqn:X; [apply str_eqb_eq in X; congruence|]. destruct (make_public_inv R Q _ c Ic Np Qx) as [I2 P2]. apply set_child_rule; [exact I| |exact NX]. apply base_public; assumption.
      + apply set_child_rule; [exact I| |exact NX]. rewrite app_snoc. apply IH; [exact Ic|discriminate|apply NSr; discriminate|exact HQr].
    - destruct (str_eqb x STAR) eqn:X.
      + apply str_eqb_eq in X. subst x. destruct r as [|y r]; [apply base_star; exact I|]. exfalso. apply NS. left. reflexivity.
      + apply str_eqb_neq in X. rewrite (expand_fresh n x) by apply I. pose proof (fresh_inv R Q p0 n x I E X) as If.
        assert (NE : ~ exception R (p0 ++ [x])) by (intros H; apply (inv_ex R Q p0 n I false [x]) in H; [rewrite find_cons, E in H; congruence|intros [Y|[]]; congruence]).
        pose proof (force_inv R Q _ _ If Np Qx NE) as I2. apply set_child_rule; [exact I| |exact X]. destruct r as [|y r].
        * cbn [add_public]. apply base_public; [exact I2|exact Np|]. intros _. destruct (fresh n); reflexivity.
        * rewrite app_snoc. apply IH; [exact I2|discriminate|apply NSr; discriminate|exact HQr].
  Qed.
  Lemma add_private_inv : forall d R Q p0 n, Inv R Q p0 n -> d <> [] -> ~ In STAR d -> Inv ((false, p0 ++ d) :: R) Q p0 (add_private n d).
  Proof.
    induction d as [|x r IH]; intros R Q p0 n I Nd NS; [congruence|]. cbn [add_private].
    assert (Np : p0 ++ [x] <> []) by (destruct p0; discriminate). assert (NX : x <> STAR) by (intros ->; apply NS; left; reflexivity). assert (NSr : ~ In STAR r) by (intros H; apply NS; right; exact H).
    destruct (str_eqb x STAR) eqn:X; [apply str_eqb_eq in X; congruence|].
    destruct (child n x) as [c|] eqn:E.
    - destruct (inv_child R Q p0 n x c I E) as [Ic _]. destruct r as [|y r]; (apply set_child_rule; [exact I| |exact NX]); [apply base_private; assumption|]. rewrite app_snoc. apply IH; [exact Ic|discriminate|exact NSr].
    - rewrite (expand_fresh n x) by apply I. pose proof (fresh_inv R Q p0 n x I E NX) as If. apply set_child_rule; [exact I| |exact NX]. destruct r as [|y r]; [apply base_private; assumption|]. rewrite app_snoc. apply IH; [exact If|discriminate|exact NSr].
  Qed.
  Lemma at_node_inv : forall A (f : node -> node * A) d R Q p0 n, (forall m, n_nodes (fst (f m)) = n_nodes m /\ n_public (fst (f m)) = n_public m /\ n_private (fst (f m)) = n_private m /\ n_depth (fst (f m)) = n_depth m) ->
    Inv R Q p0 n -> ~ In STAR d -> Inv R Q p0 (fst (at_node f n d)).
  Proof.
    intros A f. induction d as [|x r IH]; intros R Q p0 n Hf I NS; cbn [at_node].
    - destruct (Hf n) as (H1 & H2 & H3 & H4). eapply root_inv; [exact I|exact H1|]. apply (node_ok_attr R Q p0 n); auto. pose proof (inv_ok R Q p0 n I [] n eq_refl) as K. rewrite app_nil_r in K. exact K.
    - assert (NX : x <> STAR) by (intros ->; apply NS; left; reflexivity). assert (NSr : ~ In STAR r) by (intros H; apply NS; right; exact H).
      set (c := match child n x with Some c => c | None => expand_node n x end).
      assert (Ic : Inv R Q (p0 ++ [x]) c). { unfold c. destruct (child n x) as [c1|] eqn:E; [apply (inv_child R Q p0 n x c1 I E)|]. rewrite expand_fresh by apply I. apply fresh_inv; assumption. }
      specialize (IH R Q (p0 ++ [x]) c Hf Ic NSr). destruct (at_node f c r) as [c' a]. cbn [fst] in *. eapply set_child_inv; [exact I|exact IH|exact NX|auto|auto].
  Qed.
End Inv.
